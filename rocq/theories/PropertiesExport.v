(** * C67: the graph written by the ONNX exporter is a graph. *)
From Coq Require Import String.
From Coq Require Import ZArith List Lia Bool Reals Permutation.
Import ListNotations.
From Verif Require Import CMem Num RealInst Activation Reduce Graph GraphSpec LayerKinds ExportSpec Export ExportNames PropertiesGraph.
From Verif Require Broadcast.
Open Scope string_scope.
Open Scope list_scope.

(** Hypotheses [well_listed] (ExportNames.v): every layer is exported once,
    after the layers it reads; input layers have no fused activation; input and
    constant layers read nothing; there is no ActivationLayer whose function is
    Linear.  Then, when the exporter returns a graph: no name is defined twice,
    every name read is defined before it is read, and the outputs are names of
    the graph. *)
Theorem C67_export_well_formed : forall (md : model Rnum) (ex : nat -> extra) (ls : list nat) (g : onnx_graph),
  well_listed md ls -> export_layers md ex ls = Some g -> well_formed g.
Proof.
  intros md ex ls g WL HG. destruct (export_layers_eq md ex ls g HG) as (-> & HA).
  unfold well_formed, defined_names. cbn [g_inputs g_init g_nodes g_outputs].
  assert (BD : forall p, In p ls -> In (base md p) (map fst (ins_of md ex p)) \/ In (base md p) (map n_output (nodes_of md ex p))).
  { intros p Hp. apply (base_defined md ex p ls WL Hp). apply HA. exact Hp. }
  split; [|split].
  - eapply Permutation_NoDup; [apply Permutation_sym, flat_map_perm; exact HA|]. apply keys_nodup; [apply (wl_once _ _ WL)|apply (wl_plain _ _ WL)].
  - intros l1 nd l2 E nm Hnm. destruct (flat_map_cut _ _ _ _ _ E) as (a & n & b & c & d & El & En & E1).
    assert (Hn : In n ls) by (rewrite El; apply in_or_app; right; left; reflexivity).
    destruct (node_inputs md ex n c nd d En nm Hnm) as [(p & Hp & ->)|[->|[H|[H|(HF & e & HE & HN)]]]].
    + assert (Ha : In p a) by (eapply (wl_order _ _ WL); [exact El|exact Hp]).
      assert (Hl : In p ls) by (rewrite El; apply in_or_app; left; exact Ha).
      destruct (BD p Hl) as [H|H].
      * right. left. apply in_map_iff in H. destruct H as (x & Hx & Hi). apply in_map_iff. exists x. split; [exact Hx|]. apply in_flat_map. exists p. split; assumption.
      * right. right. right. rewrite E1, map_app. apply in_or_app. left. apply in_map_iff in H. destruct H as (x & Hx & Hi). apply in_map_iff. exists x.
        split; [exact Hx|]. apply in_flat_map. exists p. split; assumption.
    + left. reflexivity.
    + right. right. left. apply in_map_iff in H. destruct H as (x & Hx & Hi). apply in_map_iff. exists x. split; [exact Hx|]. apply in_flat_map. exists n. split; assumption.
    + right. right. right. rewrite E1, map_app. apply in_or_app. right. exact H.
    + exfalso. destruct (HA n Hn) as (i & e' & EI & EE). rewrite HE in EE. injection EE as <-.
      destruct (layer_gives md ex n i e ls WL Hn EI HE) as [(_ & HK)|(nd' & H & _)]; [|rewrite HN in H; discriminate].
      pose proof (wl_plain _ _ WL n Hn HK) as HL. unfold fused in HF. rewrite HL in HF. destruct (lkind Rnum (md_layer Rnum md n)); discriminate.
  - intros nm H. apply in_map_iff in H. destruct H as ((nm', sh) & Hx & H). cbn [fst] in Hx. subst nm'. apply in_flat_map in H. destruct H as (n & Hn & H).
    unfold outs_of, export_output in H. destruct (next_layer (md_graph Rnum md) n); [|destruct H]. destruct H as [H|[]]. injection H as <- <-.
    destruct (BD n Hn) as [H|H]; apply in_map_iff in H; destruct H as (x & Hx & Hi); apply in_or_app.
    + left. apply in_map_iff. exists x. split; [exact Hx|]. apply in_flat_map. exists n. split; assumption.
    + right. apply in_or_app. right. apply in_map_iff. exists x. split; [exact Hx|]. apply in_flat_map. exists n. split; assumption.
Qed.
Print Assumptions C67_export_well_formed.

(** On the list of layers kept by the tool, in the order of its own sort. *)
Theorem C67_sorted_layers : forall (md : model Rnum) (ex : nat -> extra),
  let gr := md_graph Rnum md in
  linked gr -> acyclic gr -> constants_are_sources gr -> no_constant_expression gr ->
  (exists n, In n (dnn gr) /\ is_constant gr n = false) ->
  (forall n, In n (dnn gr) -> input_kind md n -> previous_layer gr n = [] /\ lact Rnum (md_layer Rnum md n) = LinearAct) ->
  (forall n w, In n (dnn gr) -> lk Rnum md n = KConstant Rnum w -> previous_layer gr n = []) ->
  (forall n k, In n (dnn gr) -> lk Rnum md n = KActivation Rnum k -> lact Rnum (md_layer Rnum md n) <> LinearAct) ->
  exists s, tri_topo gr = Some s /\ forall g, export_layers md ex (order s) = Some g -> well_formed g.
Proof.
  intros md ex gr L A C N HN HI HC HL.
  destruct (C01_layers_after_their_producers gr L A C N HN) as (s & HS & P & T). exists s. split; [exact HS|]. intros g HG.
  apply (C67_export_well_formed md ex (order s) g); [|exact HG].
  assert (IN : forall n, In n (order s) -> In n (dnn gr)) by (intros n H; eapply Permutation_in; [apply Permutation_sym; exact P|exact H]).
  constructor.
  - eapply Permutation_NoDup; [exact P|]. apply L.
  - exact T.
  - intros n Hn HK. apply HI; [apply IN; exact Hn|exact HK].
  - intros n Hn [HK|(w & HK)]; [apply HI; [apply IN; exact Hn|exact HK]|eapply HC; [apply IN; exact Hn|exact HK]].
  - intros n k Hn. apply HL. apply IN. exact Hn.
Qed.
Print Assumptions C67_sorted_layers.

(** Example: input of shape (1,2,4,4), a convolution with a fused Clip whose
    tensor is read by a Tanh layer and by a Concat layer; the Softmax of the
    concatenation. *)
Definition ex67_graph : graph := mkGraph [0; 1; 2; 3; 4]%nat
  (fun n => match n with 1 => [0] | 2 => [1] | 3 => [1; 2] | 4 => [3] | _ => [] end)%nat
  (fun n => match n with 0 => [1] | 1 => [2; 3] | 2 => [3] | 3 => [4] | _ => [] end)%nat (fun _ => false).
Definition ex67_conv : Conv.conv_params :=
  Conv.mkConv 2 4 4 3 4 4 3 3 1 1 1 1 1 1.
Definition ex67_model (middle : activation Rnum) : model Rnum := mkModel Rnum ex67_graph
  (fun n => match n with
    | 0 => mkLayer Rnum (KInput4 Rnum 2 4 4) LinearAct
    | 1 => mkLayer Rnum (KConv Rnum SixLoops ex67_conv (repeat 1%R 54) [1; 2; 3]%R) (Clip (N := Rnum) 6%R 0%R)
    | 2 => mkLayer Rnum (KActivation Rnum 48) middle
    | 3 => mkLayer Rnum (KConcat Rnum 1 6 4 4 [(3, 4, 4); (3, 4, 4)]%Z) LinearAct
    | _ => mkLayer Rnum (KSoftmax Rnum 6 4 4 3) LinearAct end)%nat false.
Definition ex67_extra (n : nat) : extra := mkExtra [1; 2; 4; 4]%Z 0%Z 1%Z 0%Z 0%Z 1%Z [] None [] [].
Example C67_example : exists g,
  export_layers (ex67_model TanH) ex67_extra [0; 1; 2; 3; 4]%nat = Some g /\ List.length (g_nodes g) = 5%nat /\
  List.length (g_init g) = 4%nat /\ well_listed (ex67_model TanH) [0; 1; 2; 3; 4]%nat /\
  map n_output (g_nodes g) = ["Conv2D_1_pre_activation"; "Conv2D_1"; "Hyperb_tan_2"; "Concatenate_3"; "Softmax_4"].
Proof.
  eexists. split; [reflexivity|]. split; [reflexivity|]. split; [reflexivity|]. split; [|reflexivity]. constructor.
  - repeat constructor; cbn; intuition discriminate.
  - intros l1 n l2 E p Hp.
    do 5 (destruct l1 as [|? l1]; cbn in E; [injection E as <- _; cbn in Hp; intuition subst; cbn; auto|injection E as <- E]).
    destruct l1; discriminate.
  - intros n Hn HK. cbn in Hn. destruct Hn as [<-|[<-|[<-|[<-|[<-|[]]]]]]; try reflexivity; destruct HK.
  - intros n Hn [H|(w & H)]; cbn in Hn; destruct Hn as [<-|[<-|[<-|[<-|[<-|[]]]]]]; try reflexivity; try (destruct H; fail); discriminate H.
  - intros n k Hn H. cbn in Hn; destruct Hn as [<-|[<-|[<-|[<-|[<-|[]]]]]]; discriminate.
Qed.

(** With a Linear ActivationLayer (which can be built by hand and for which the
    tool generates code) the exported graph reads a name that nothing
    defines. *)
Theorem C67_linear_layer_refuted : exists g,
  export_layers (ex67_model LinearAct) ex67_extra [0; 1; 2; 3; 4]%nat = Some g /\
  exists nd, In nd (g_nodes g) /\ In "Linear_2" (n_inputs nd) /\ ~ In "Linear_2" (defined_names g) /\ ~ well_formed g.
Proof.
  eexists. split; [reflexivity|]. exists (mkONode "Concat" [("axis", AInt 1)] ["Conv2D_1"; "Linear_2"] "Concatenate_3").
  assert (ND : ~ In "Linear_2" (defined_names (mkOGraph
    (flat_map (ins_of (ex67_model LinearAct) ex67_extra) [0; 1; 2; 3; 4]%nat) (flat_map (inits_of (ex67_model LinearAct) ex67_extra) [0; 1; 2; 3; 4]%nat)
    (flat_map (nodes_of (ex67_model LinearAct) ex67_extra) [0; 1; 2; 3; 4]%nat) (flat_map (outs_of (ex67_model LinearAct) ex67_extra) [0; 1; 2; 3; 4]%nat)))).
  { cbn. intuition discriminate. }
  assert (I1 : In (mkONode "Concat" [("axis", AInt 1)] ["Conv2D_1"; "Linear_2"] "Concatenate_3") (flat_map (nodes_of (ex67_model LinearAct) ex67_extra) [0; 1; 2; 3; 4]%nat)).
  { cbn. right. right. left. reflexivity. }
  split; [exact I1|]. split; [right; left; reflexivity|]. split; [exact ND|].
  intros (_ & H & _). apply in_split in I1. destruct I1 as (l1 & l2 & E). specialize (H l1 _ l2 E "Linear_2" (or_intror (or_introl eq_refl))).
  apply ND. unfold defined_names. destruct H as [H|[H|[H|H]]]; [discriminate| | |].
  - apply in_or_app. left. exact H.
  - apply in_or_app. right. apply in_or_app. left. exact H.
  - apply in_or_app. right. apply in_or_app. right. apply in_map_iff in H. destruct H as (x & Hx & H). apply in_map_iff. exists x. split; [exact Hx|].
    cbn [g_nodes]. rewrite E. apply in_or_app. left. exact H.
Qed.
Print Assumptions C67_linear_layer_refuted.

(** Layers on which the exporter raises: every MatMul layer, every Add layer,
    every Resize layer without an axes list, every Constant layer. *)
Theorem C67_layers_without_export_refuted : forall (md : model Rnum) (ex : nat -> extra) (ls : list nat) (n : nat), In n ls ->
  (exists C OH OW K, lk Rnum md n = KMatMul Rnum C OH OW K) \/
  (exists shapes cst o, lk Rnum md n = KBroadcast Rnum Broadcast.BAdd shapes cst o) \/
  (x_axes (ex n) = [] /\ ((exists nm p, lk Rnum md n = KNearest Rnum nm p) \/ (exists p, lk Rnum md n = KLinear Rnum p) \/ (exists a p, lk Rnum md n = KCubic Rnum a p))) \/
  (previous_layer (md_graph Rnum md) n = [] /\ exists w, lk Rnum md n = KConstant Rnum w) ->
  export_layers md ex ls = None.
Proof.
  intros md ex ls n Hn H. destruct (export_layers md ex ls) as [g|] eqn:E; [exfalso|reflexivity].
  destruct (export_layers_eq md ex ls g E) as (_ & HA). destruct (HA n Hn) as (i & e & EI & EE).
  unfold export_input in EI. unfold export_layer in EE. unfold lk in H.
  destruct H as [(C & OH & OW & K & H)|[(sh & cst & o & H)|[(HX & [(nm & p & H)|[(p & H)|(a & p & H)]])|(HP & w & H)]]]; rewrite ?H, ?HX, ?HP in *; try discriminate.
Qed.
Print Assumptions C67_layers_without_export_refuted.
