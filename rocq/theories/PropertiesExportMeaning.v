(** * C68: the exported ONNX graph computes the network. *)
From Coq Require Import String.
From Coq Require Import ZArith List Lia Bool Reals Lra QArith Permutation.
Import ListNotations.
Open Scope Z_scope.
From Verif Require Import CMem Tensor Num RealInst Activation Conv Pooling Movement MovementProofs Pad Linear Reduce Graph GraphSpec LayerKinds Net
  OnnxSpec OnnxOpsProofs OnnxWindowSpec OnnxLinearSpec OnnxMiscSpec ExportSpec Export ExportNames ExportRun ExportDet ExportMeaning PropertiesGraph PropertiesExport.
From Verif Require Broadcast BroadcastProofs.
Open Scope string_scope.
Open Scope list_scope.
Open Scope Z_scope.

(** [val] are the values of the documented layers on the input [x]; [dims] are
    dimensions for the ONNX tensors: those of the input layer for the input,
    and, for each other layer, dimensions for which the exporter is right
    ([exportable], ExportRun.v).  The exporter then returns a graph, the graph
    can be run on the network input, and every run gives the tensor named after
    layer n (its output name in the file) the dimensions and the value of that
    layer. *)
Theorem C68_exported_graph_partial : forall (ninf : R) (q : Q -> R) (md : model Rnum) (ex : nat -> extra) (s : schedule)
    (x : list R) (val : nat -> list R) (dims : nat -> list Z) (ls : list nat),
  let gr := md_graph Rnum md in
  let image := md_pre Rnum md s x in
  well_listed md ls -> incl ls (dnn gr) ->
  evaluates (documented_net Rnum ninf q md s) x val ->
  (forall n, In n ls -> Forall (fun d => 0 <= d) (dims n)) ->
  (forall n, In n ls -> input_kind md n -> dims n = x_shape (ex n) /\ zlen image = prod (dims n)) ->
  (forall n, In n ls -> ~ input_kind md n -> exportable (md_layer Rnum md n) (ex n) (map dims (previous_layer gr n)) (dims n)) ->
  exists g, export_layers md ex ls = Some g /\
    (exists env, runs g (fun _ => image) env) /\
    (forall env, runs g (fun _ => image) env -> forall n, In n ls -> env (base md n) = Some (TFloat (dims n) (val n))) /\
    (forall nm ds, In (nm, ds) (g_outputs g) <-> exists n, In n ls /\ next_layer gr n = [] /\ nm = base md n /\ ds = declared_shape md ex n).
Proof.
  intros ninf q md ex s x val dims ls gr image WL IN EV SZ HI HX. exists (exported md ex ls). split; [|split; [|split]].
  - eapply is_exported; eassumption.
  - eexists. eapply some_run; eassumption.
  - eapply every_run; eassumption.
  - intros nm ds. cbn [exported g_outputs]. rewrite in_flat_map. split.
    + intros (n & Hn & H). unfold outs_of, export_output in H. destruct (next_layer (md_graph Rnum md) n) eqn:EN; [|destruct H]. destruct H as [H|[]]. injection H as <- <-. exists n. split; [exact Hn|]. split; [exact EN|]. split; reflexivity.
    + intros (n & Hn & EN & -> & ->). exists n. split; [exact Hn|]. unfold outs_of, export_output. fold gr. rewrite EN. left. reflexivity.
Qed.
Print Assumptions C68_exported_graph_partial.

(** ** Example: the network of C67_example (a convolution with a fused Clip, a
    Tanh layer, a concatenation, a Softmax along the last axis). *)
Definition ex68_val (ninf : R) (q : Q -> R) (x : list R) (n : nat) : list R :=
  let m k := meaning Rnum ninf q (md_layer Rnum (ex67_model TanH) k) in
  let v1 := m 1%nat [x] in let v2 := m 2%nat [v1] in let v3 := m 3%nat [v1; v2] in
  match n with 0 => x | 1 => v1 | 2 => v2 | 3 => v3 | _ => m 4%nat [v3] end%nat.
Definition ex68_dims (n : nat) : list Z :=
  match n with 0%nat => [1; 2; 4; 4] | 1%nat | 2%nat => [1; 3; 4; 4] | _ => [1; 6; 4; 4] end.
Example C68_example : forall (ninf : R) (q : Q -> R) (s : schedule) (x : list R), zlen x = 32 ->
  let md := ex67_model TanH in let ls := [0; 1; 2; 3; 4]%nat in
  well_listed md ls /\ incl ls (dnn (md_graph Rnum md)) /\ md_pre Rnum md s x = x /\
  evaluates (documented_net Rnum ninf q md s) x (ex68_val ninf q x) /\
  (forall n, In n ls -> Forall (fun d => 0 <= d) (ex68_dims n)) /\
  (forall n, In n ls -> input_kind md n -> ex68_dims n = x_shape (ex67_extra n) /\ zlen x = prod (ex68_dims n)) /\
  (forall n, In n ls -> ~ input_kind md n -> exportable (md_layer Rnum md n) (ex67_extra n) (map ex68_dims (previous_layer (md_graph Rnum md) n)) (ex68_dims n)).
Proof.
  intros ninf q s x L md ls. destruct C67_example as (g & _ & _ & _ & WL & _).
  assert (PRE : md_pre Rnum md s x = x) by (unfold md_pre; destruct (lk Rnum md _); reflexivity).
  split; [exact WL|]. split; [intros n Hn; exact Hn|]. split; [exact PRE|]. split; [|split; [|split]].
  - intros n Hn. cbn [net_graph documented_net net_with pre]. rewrite PRE. cbn in Hn. destruct Hn as [<-|[<-|[<-|[<-|[<-|[]]]]]]; reflexivity.
  - intros n Hn. cbn in Hn. destruct Hn as [<-|[<-|[<-|[<-|[<-|[]]]]]]; cbn; repeat constructor; lia.
  - intros n Hn K. cbn in Hn. destruct Hn as [<-|[<-|[<-|[<-|[<-|[]]]]]]; try (exfalso; exact K). split; [reflexivity|exact L].
  - intros n Hn K. cbn in Hn. destruct Hn as [<-|[<-|[<-|[<-|[<-|[]]]]]]; [exfalso; apply K; exact I| | | |].
    + split; [cbn; unfold Rltb; destruct (Rlt_dec 6 0); [lra|reflexivity]|]. cbn. repeat split; try lia.
    + split; [exact I|]. split; [reflexivity|exact I].
    + split; [exact I|]. cbn. repeat split; try lia; try discriminate. repeat constructor; lia.
    + split; [exact I|]. cbn. repeat split; try lia; try (repeat constructor; lia).
Qed.

(** ** Layers that are exported wrongly.  One layer after an input layer. *)
Definition two_graph : graph := mkGraph [0; 1]%nat (fun n => match n with 1 => [0] | _ => [] end)%nat (fun n => match n with 0 => [1] | _ => [] end)%nat (fun _ => false).
Definition two_model (l : layer Rnum) : model Rnum :=
  mkModel Rnum two_graph (fun n => match n with O => mkLayer Rnum (KInput4 Rnum 1 1 1) LinearAct | _ => l end) false.
Definition image_of (ds : list Z) (n : nat) : extra := mkExtra ds 0 1 0 0 1 [] None [] [].
Definition the_graph (l : layer Rnum) (ds : list Z) : option onnx_graph := export_layers (two_model l) (image_of ds) [0; 1]%nat.

Ltac no_such := try discriminate; repeat match goal with
  | H : unary_of _ _ = Some _ |- _ => exfalso; vm_compute in H; discriminate H
  | H : variadic_of _ = Some _ |- _ => exfalso; vm_compute in H; discriminate H
  | H : binary_of _ = Some _ |- _ => exfalso; vm_compute in H; discriminate H
  | H : reduction_of _ = Some _ |- _ => exfalso; vm_compute in H; discriminate H
  | H : (_ = "MaxPool" /\ _) \/ _ |- _ => exfalso; destruct H as [(H & _)|(H & _)]; discriminate H
  end.

(** Indices and repeats are written with the element type of the data; the
    operators want integers.  No ONNX runtime accepts these graphs. *)
Theorem C68_integer_inputs_refuted : forall (x : list R) (inds : list Z),
  (exists g, the_graph (mkLayer Rnum (KGather Rnum 1 1 1 1 inds) LinearAct) [1; 1; 1; 1] = Some g /\ forall env, ~ runs g (fun _ => x) env) /\
  (exists g, the_graph (mkLayer Rnum (KGatherElements Rnum 1 1 1 1 1 1 1 inds) LinearAct) [1; 1; 1; 1] = Some g /\ forall env, ~ runs g (fun _ => x) env) /\
  (exists g, the_graph (mkLayer Rnum (KTile Rnum 1 1 1 2 1 1) LinearAct) [1; 1; 1; 1] = Some g /\ forall env, ~ runs g (fun _ => x) env).
Proof.
  intros x inds.
  split; [|split]; (eexists; split; [reflexivity|]); intros env (E0 & RI & RT & RN); cbn [g_inputs g_init g_nodes] in *;
    destruct (RN _ (or_introl eq_refl)) as (out & _ & NH); cbn [n_op n_attrs n_inputs map] in NH;
    pose proof (RI _ _ (or_introl eq_refl)) as E1; cbn [fst snd] in RT; pose proof (RT _ _ (or_introl eq_refl)) as E2;
    cbn in NH, E1, E2; rewrite E1, E2 in NH; inversion NH; subst; no_such.
Qed.
Print Assumptions C68_integer_inputs_refuted.

(** A Gemm layer whose alpha is one keeps no coefficient (Gemm.py:61-64); the
    exporter writes the integer 1 where a FLOAT attribute is required.  An
    Average layer is written as the operator "Ave". *)
Theorem C68_no_such_node_refuted : forall (x : list R) (beta : option R) (w b : list R),
  (exists g, the_graph (mkLayer Rnum (KGemm Rnum false false None beta 1 1 1 w b) LinearAct) [1; 1] = Some g /\ forall env, ~ runs g (fun _ => x) env) /\
  (exists g, the_graph (mkLayer Rnum (KBroadcast Rnum Broadcast.BAvg [Broadcast.mkShape 1 1 1] None (Broadcast.mkShape 1 1 1)) LinearAct) [1; 1; 1; 1] = Some g /\
     forall env, ~ runs g (fun _ => x) env).
Proof.
  intros x beta w b.
  split; (eexists; split; [reflexivity|]); intros env (E0 & RI & RT & RN); cbn [g_inputs g_init g_nodes] in *;
    destruct (RN _ (or_introl eq_refl)) as (out & _ & NH); cbn [n_op n_attrs n_inputs map] in NH;
    pose proof (RI _ _ (or_introl eq_refl)) as E1; cbn in NH, E1; rewrite E1 in NH; inversion NH; subst; no_such.
Qed.
Print Assumptions C68_no_such_node_refuted.

(** The outputs of Dense layers have one or two dimensions; a Concatenate layer
    is exported with its axis in (1, C, H, W). *)
Definition dense3_graph : graph := mkGraph [0; 1; 2]%nat (fun n => match n with 1 => [0] | 2 => [0; 1] | _ => [] end)%nat
  (fun n => match n with 0 => [1; 2] | 1 => [2] | _ => [] end)%nat (fun _ => false).
Definition dense3_model : model Rnum := mkModel Rnum dense3_graph (fun n => match n with
  | O => mkLayer Rnum (KInput Rnum 2) LinearAct | 1%nat => mkLayer Rnum (KDense Rnum 2 2 [1; 0; 0; 1]%R [0; 0]%R) LinearAct
  | _ => mkLayer Rnum (KConcat Rnum 3 1 1 4 [(1, 1, 2); (1, 1, 2)]) LinearAct end) false.
Theorem C68_concat_of_dense_refuted : forall (x : list R), zlen x = 2 ->
  exists g, export_layers dense3_model (image_of [1; 2]) [0; 1; 2]%nat = Some g /\ forall env, ~ runs g (fun _ => x) env.
Proof.
  intros x L. eexists. split; [reflexivity|]. intros env (E0 & RI & RT & RN); cbn [g_inputs g_init g_nodes] in *.
  destruct (RN _ (or_introl eq_refl)) as (o1 & EO1 & NH1). destruct (RN _ (or_intror (or_introl eq_refl))) as (o2 & _ & NH2).
  pose proof (RI _ _ (or_introl eq_refl)) as E1. pose proof (RT _ _ (or_introl eq_refl)) as E2. pose proof (RT _ _ (or_intror (or_introl eq_refl))) as E3.
  cbn in NH1, NH2, E1, E2, E3, EO1. rewrite E1, E2, E3 in NH1. inversion NH1; subst; no_such.
  rewrite E1, EO1 in NH2. inversion NH2; subst; no_such.
  destruct ops as [|[d1 v1] ops]; [discriminate|].
  match goal with A : map _ _ = _, P : option_map _ _ = Some p, F : Forall _ _, L2 : (p < _)%nat |- _ => cbn [map fst snd] in A; injection A as -> _ _; inversion F as [|? ? F1 _]; subst; cbn [fst] in F1;
    apply (f_equal (@List.length Z)) in F1; rewrite set_at_length in F1; cbn in P; injection P as <-; unfold axis_pos, from_back in L2; cbn in L2; cbn in F1; lia end.
Qed.
Print Assumptions C68_concat_of_dense_refuted.

(** The declared output shape of a Dense layer is (1, 1, 1, 1). *)
Theorem C68_declared_shape_refuted : forall (x w b : list R), zlen x = 2 ->
  exists g, the_graph (mkLayer Rnum (KDense Rnum 2 3 w b) LinearAct) [1; 2] = Some g /\
    g_outputs g = [("Dense_1", [1; 1; 1; 1])] /\
    forall env, runs g (fun _ => x) env -> (exists y, env "Dense_1" = Some (TFloat [1; 3] y)) /\ ~ outputs_as_declared g env.
Proof.
  intros x w b L. eexists. split; [reflexivity|]. split; [reflexivity|]. intros env (E0 & RI & RT & RN). cbn [g_inputs g_init g_nodes] in *.
  destruct (RN _ (or_introl eq_refl)) as (o1 & EO1 & NH1).
  pose proof (RI _ _ (or_introl eq_refl)) as E1. pose proof (RT _ _ (or_introl eq_refl)) as E2. pose proof (RT _ _ (or_intror (or_introl eq_refl))) as E3.
  cbn in NH1, E1, E2, E3, EO1. rewrite E1, E2, E3 in NH1.
  assert (OUT : exists y, env "Dense_1" = Some (TFloat [1; 3] y)).
  { inversion NH1; subst; no_such. match goal with A : lead ++ [_] = _ |- _ => change [1; 2] with ([1] ++ [2]) in A; apply app_inj_tail in A; destruct A as (-> & _) end.
    exists y. exact EO1. }
  split; [exact OUT|]. intros D. destruct (D "Dense_1" [1; 1; 1; 1] (or_introl eq_refl)) as (y & Ey). destruct OUT as (y' & Ey'). rewrite Ey in Ey'. discriminate.
Qed.
Print Assumptions C68_declared_shape_refuted.

(** ActivationLayers lose their parameters: Clip its bounds, LeakyRelu its
    slope (the fused ones keep them). *)
Theorem C68_activation_layer_refuted : forall (ninf : R) (q : Q -> R),
  (let l := mkLayer Rnum (KActivation Rnum 1) (Clip (N := Rnum) 6%R 0%R) in exists g, the_graph l [1; 1] = Some g /\
     forall env, runs g (fun _ => [10%R]) env -> env "Clip_1" = Some (TFloat [1; 1] [10%R]) /\ meaning Rnum ninf q l [[10%R]] = [6%R]) /\
  (let l := mkLayer Rnum (KActivation Rnum 1) (LeakyReLu (N := Rnum) (1 / 2)%R) in exists g, the_graph l [1; 1] = Some g /\
     forall env, runs g (fun _ => [(- 2)%R]) env -> env "Leakyrelu_1" = Some (TFloat [1; 1] [(- (2 / 100))%R]) /\ meaning Rnum ninf q l [[(- 2)%R]] = [(- 1)%R]).
Proof.
  intros ninf q. split; intros l; (eexists; split; [reflexivity|]); intros env (E0 & RI & RT & RN); cbn [g_inputs g_init g_nodes] in *;
    destruct (RN _ (or_introl eq_refl)) as (o1 & EO1 & NH1); pose proof (RI _ _ (or_introl eq_refl)) as E1; cbn in NH1, E1, EO1; rewrite E1 in NH1; split.
  - rewrite EO1. inversion NH1; subst; no_such.
    repeat match goal with B : bound_is (nth _ [] None) _ |- _ => cbn in B; inversion B; subst; clear B end. reflexivity.
  - cbn. unfold np_minimum, np_maximum. cbn [nlt Rnum n0]. unfold Rltb. repeat destruct (Rlt_dec _ _); try lra; reflexivity.
  - rewrite EO1. inversion NH1; subst; no_such. match goal with U : unary_of _ _ = Some _ |- _ => cbn in U; injection U as <- end. cbn. destruct (Rlt_dec (- 2) 0); [|lra]. repeat f_equal. lra.
  - cbn. unfold Rltb. repeat destruct (Rlt_dec _ _); try lra. f_equal. lra.
Qed.
Print Assumptions C68_activation_layer_refuted.

(** Flatten layers of a channels_last model: the exported node keeps the order
    (channel, row, column). *)
Theorem C68_flatten_refuted : forall (ninf : R) (q : Q -> R), let x := [0; 1; 2; 3]%R in
  let l := mkLayer Rnum (KFlatten Rnum true 2 1 2) LinearAct in exists g, the_graph l [1; 2; 1; 2] = Some g /\
  forall env, runs g (fun _ => x) env -> env "Flatten_1" = Some (TFloat [1; 4] x) /\ meaning Rnum ninf q l [x] = [0; 2; 1; 3]%R.
Proof.
  intros ninf q x l. eexists. split; [reflexivity|]. intros env (E0 & RI & RT & RN). cbn [g_inputs g_init g_nodes] in *.
  destruct (RN _ (or_introl eq_refl)) as (o1 & EO1 & NH1). pose proof (RI _ _ (or_introl eq_refl)) as E1. cbn in NH1, E1, EO1. rewrite E1 in NH1. split; [|reflexivity].
  rewrite EO1. f_equal. refine (node_det _ _ _ [1; 4] x _ (ExportOps.hold_flatten [1; 2; 1; 2] x eq_refl) NH1 _ _).
  - repeat constructor; lia.
  - cbn. intros ds v H. injection H as <- _. repeat constructor; lia.
Qed.
Print Assumptions C68_flatten_refuted.

(** Softmax layers along another axis than the last: the axis is not written,
    its default is the last one. *)
Ltac els := repeat match goal with |- context [el ?d ?ds ?x ?i] =>
  let k := eval vm_compute in (Z.to_nat (offset ds i)) in let v := eval cbn in (nth k x d) in change (el d ds x i) with v end.
Theorem C68_softmax_axis_refuted : forall (ninf : R) (q : Q -> R), let x := [0; 0; 0; 0]%R in
  let l := mkLayer Rnum (KSoftmax Rnum 2 2 1 1) LinearAct in exists g, the_graph l [1; 2; 2; 1] = Some g /\
  forall env, runs g (fun _ => x) env -> env "Softmax_1" = Some (TFloat [1; 2; 2; 1] [1; 1; 1; 1]%R) /\ meaning Rnum ninf q l [x] = [1 / 2; 1 / 2; 1 / 2; 1 / 2]%R.
Proof.
  intros ninf q x l. eexists. split; [reflexivity|]. intros env (E0 & RI & RT & RN). cbn [g_inputs g_init g_nodes] in *.
  destruct (RN _ (or_introl eq_refl)) as (o1 & EO1 & NH1). pose proof (RI _ _ (or_introl eq_refl)) as E1. cbn in NH1, E1, EO1. rewrite E1 in NH1. split.
  - rewrite EO1. f_equal. refine (node_det _ _ _ [1; 2; 2; 1] [1; 1; 1; 1]%R _ _ NH1 _ _).
    + apply (h_softmax [] [1; 2; 2; 1] 3 x); [reflexivity|cbn; lia|]. split; [reflexivity|]. intros idx HI. apply inside4 in HI. destruct HI as (c & h & w & -> & Hc & Hh & Hw).
      assert (w = 0) by lia. subst w. assert (c = 0 \/ c = 1) as [-> | ->] by lia; assert (h = 0 \/ h = 1) as [-> | ->] by lia.
      all: match goal with |- context [filter ?f ?g] => let r := eval vm_compute in (filter f g) in change (filter f g) with r end; cbn [nexp ndiv nadd n0 Rnum map fold_left]; unfold x; els; cbn; rewrite exp_0; lra.
    + repeat constructor; lia.
    + cbn. intros ds v H. injection H as <- _. repeat constructor; lia.
  - cbv -[exp IZR Rplus Rdiv Rinv Rminus Rmult Rltb]. rewrite exp_0. repeat f_equal; lra.
Qed.
Print Assumptions C68_softmax_axis_refuted.

(** A constant operand of shape (C, 1, 1), one value per channel: the exporter
    drops the dimensions equal to one and the values end up along the last
    axis. *)
Theorem C68_channel_constant_refuted : forall (ninf : R) (q : Q -> R), let x := [1; 1; 1; 1]%R in
  let l := mkLayer Rnum (KBroadcast Rnum Broadcast.BMul [Broadcast.mkShape 2 1 2] (Some (Broadcast.mkShape 2 1 1, [3; 5]%R)) (Broadcast.mkShape 2 1 2)) LinearAct in
  exists g, the_graph l [1; 2; 1; 2] = Some g /\
  forall env, runs g (fun _ => x) env -> env "Multiply_1" = Some (TFloat [1; 2; 1; 2] [3; 5; 3; 5]%R) /\ meaning Rnum ninf q l [x] = [3; 3; 5; 5]%R.
Proof.
  intros ninf q x l. eexists. split; [reflexivity|]. intros env (E0 & RI & RT & RN). cbn [g_inputs g_init g_nodes] in *.
  destruct (RN _ (or_introl eq_refl)) as (o1 & EO1 & NH1). pose proof (RI _ _ (or_introl eq_refl)) as E1. pose proof (RT _ _ (or_introl eq_refl)) as E2. cbn in NH1, E1, E2, EO1. rewrite E1, E2 in NH1. split.
  - rewrite EO1. f_equal. refine (node_det _ _ _ [1; 2; 1; 2] [3; 5; 3; 5]%R _ _ NH1 _ _).
    + eapply h_binary; [reflexivity| |].
      * split; [|split].
        -- intros ds [<-|[<-|[]]]; cbn; lia.
        -- exists [1; 2; 1; 2]. split; [left; reflexivity|reflexivity].
        -- intros j Hj. cbn in Hj. split.
           ++ intros ds [<-|[<-|[]]]; destruct j as [|[|[|[|j]]]]; cbn; try lia; auto.
           ++ exists [1; 2; 1; 2]. split; [left; reflexivity|]. destruct j as [|[|[|[|j]]]]; cbn; try lia; reflexivity.
      * split; [reflexivity|]. intros idx HI. apply inside4 in HI. destruct HI as (c & h & w & -> & Hc & Hh & Hw).
        assert (h = 0) by lia. subst h. assert (c = 0 \/ c = 1) as [-> | ->] by lia; assert (w = 0 \/ w = 1) as [-> | ->] by lia; cbn [map fst snd fold_left aligned]; unfold x; els; lra.
    + repeat constructor; lia.
    + cbn. intros ds v H. injection H as <- _. repeat constructor; lia.
  - cbv -[exp IZR Rplus Rdiv Rinv Rminus Rmult Rltb]. repeat f_equal; lra.
Qed.
Print Assumptions C68_channel_constant_refuted.

(** Padding: written as (right, left, bottom, top), read by ONNX as (top, left,
    bottom, right).  One row added above the image becomes one column added on
    its right. *)
Theorem C68_pads_refuted : forall (ninf : R) (q : Q -> R) (x w b : list R),
  let l := mkLayer Rnum (KConv Rnum SixLoops (mkConv 1 1 2 1 2 2 1 1 1 1 1 0 0 0) w b) LinearAct in
  exists g, the_graph l [1; 1; 1; 2] = Some g /\
  forall env, runs g (fun _ => x) env -> (exists y, env "Conv2D_1" = Some (TFloat [1; 1; 1; 3] y) /\ zlen y = 3) /\ zlen (meaning Rnum ninf q l [x]) = 4.
Proof.
  intros ninf q x w b l. eexists. split; [reflexivity|]. intros env (E0 & RI & RT & RN). cbn [g_inputs g_init g_nodes] in *.
  destruct (RN _ (or_introl eq_refl)) as (o1 & EO1 & NH1). pose proof (RI _ _ (or_introl eq_refl)) as E1. pose proof (RT _ _ (or_introl eq_refl)) as E2. pose proof (RT _ _ (or_intror (or_introl eq_refl))) as E3.
  cbn in NH1, E1, E2, E3, EO1. rewrite E1, E2, E3 in NH1. split.
  - inversion NH1; subst; no_such.
    match goal with S : ints_attr "strides" _ _ = _, D : ints_attr "dilations" _ _ = _, P : ints_attr "pads" _ _ = _ |- _ => cbn in S, D, P; injection S as <- <-; injection D as <- <-; injection P as <- <- <- <- end.
    exists y. match goal with C : convolved _ _ _ _ _ _ _ _ _ _ _ _ _ _ _ _ _ _ _ _ |- _ => destruct C as (C & _) end. split; [exact EO1|]. assumption.
  - reflexivity.
Qed.
Print Assumptions C68_pads_refuted.
