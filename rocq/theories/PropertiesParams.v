(** * Property C53: parameter arrays are declared and defined alike, with the
    values the layer's code reads. *)
From Coq Require Import String ZArith List Lia Bool.
Import ListNotations.
From Verif Require Import CMem Tensor Num NumInst Conv ConvProofs ConvHWC PropertiesMovement PropertiesConvHWC Params.
Open Scope Z_scope.

(** checks of BatchNormalization.__init__ *)
Definition norm_consistent {V} (l : player V) : Prop :=
  match p_norm l with Some (mean, var, scale) => zlen var = zlen mean /\ zlen scale = zlen mean | None => True end.

(** With parameters.c, for every model: the arrays defined are those declared in
    the header, in the same order and with the same sizes. *)
Theorem C53_c_file_matches_header : forall (V : Type) (layers : list (player V)), Forall norm_consistent layers ->
  map (fun d => (fst d, zlen (snd d))) (flat_map c_definitions layers) = flat_map externs layers.
Proof.
  intros V layers H. induction H as [|l layers Hl _ IH]; [reflexivity|]. cbn [flat_map]. rewrite map_app, IH. f_equal. clear IH.
  unfold c_definitions, externs, norm_consistent in *. rewrite !map_app.
  assert (E : forall o s, map (fun d : string * list V => (fst d, zlen (snd d))) (entry o (fun w => [(s, w)])) = entry o (fun w => [(s, zlen w)])).
  { intros [[|a w]|] s; reflexivity. }
  rewrite !E. do 3 f_equal. f_equal. destruct (p_norm l) as [[[mean var] scale]|]; [|reflexivity].
  destruct Hl as [H1 H2]. destruct mean; [reflexivity|]. cbn [entry map fst snd]. rewrite H1, H2. reflexivity.
Qed.
Print Assumptions C53_c_file_matches_header.

(** Without a Broadcast with a constant operand and without indirect convolution,
    parameters.dat has every array declared. *)
Theorem C53_binary_file_partial : forall (V : Type) (layers : list (player V)),
  Forall (fun l => norm_consistent l /\ p_operand l = None /\ p_patches l = None) layers ->
  forall s n, In (s, n) (flat_map externs layers) -> exists v, In (s, v) (flat_map bin_definitions layers).
Proof.
  intros V layers H s n Hi. apply in_flat_map in Hi as (l & Hl & Hi). rewrite Forall_forall in H.
  destruct (H l Hl) as (HN & HO & HP).
  enough (exists v, In (s, v) (bin_definitions l)) as (v & Hv) by (exists v; apply in_flat_map; exists l; auto).
  unfold externs in Hi. rewrite HO, HP in Hi. cbn [entry] in Hi. rewrite app_nil_r in Hi. cbn [app] in Hi.
  assert (EI : forall o nm, In (s, n) (entry o (fun w => [(nm, zlen w)])) -> exists w : list V, o = Some w /\ s = nm).
  { intros [[|a w]|] nm HH; cbn in HH; try tauto. destruct HH as [HH|[]]. injection HH as <- _. eauto. }
  unfold bin_definitions. apply in_app_or in Hi as [Hi|Hi].
  - apply EI in Hi as (w & Hw & ->). unfold weights_of in Hw. destruct (p_constant l); [eexists; left; reflexivity|].
    rewrite Hw. eexists. left. reflexivity.
  - apply in_app_or in Hi as [Hi|Hi].
    + apply EI in Hi as (w & Hw & ->). rewrite Hw. eexists. apply in_or_app. right. left. reflexivity.
    + destruct (p_norm l) as [[[mean var] scale]|]; [|destruct Hi]. destruct mean as [|a mean]; [destruct Hi|].
      destruct Hi as [Hi|[Hi|[Hi|[]]]]; injection Hi as <- <-; eexists; apply in_or_app; right; apply in_or_app; right; cbn; eauto.
Qed.
Print Assumptions C53_binary_file_partial.
(** With one of them, an array declared and used is nowhere defined. *)
Theorem C53_binary_file_refuted : exists (l1 l2 : player Z) s1 n1 s2 n2,
  In (s1, n1) (externs l1) /\ bin_definitions l1 = [] /\
  In (s2, n2) (externs l2) /\ (forall v, ~ In (s2, v) (bin_definitions l2)).
Proof.
  exists (mkPlayer "Add_01" None None None None None None (Some [5])),
         (mkPlayer "Conv2D_02" (Some [1]) None None (Some [0]) (Some [3]) None None),
         "constant_Add_01"%string, 1, "ppatches_Conv2D_02"%string, 1.
  split; [left; reflexivity|]. split; [reflexivity|]. split; [right; right; left; reflexivity|].
  intros v [H|[H|[]]]; discriminate.
Qed.
Print Assumptions C53_binary_file_refuted.

(** The values: a layer of the direct_block implementation reads its weights in
    blocked layout (C49_direct_block).  parameters.dat holds that layout;
    parameters.c holds the weights as given, so that the code computes something
    else than the convolution. *)
Theorem C53_direct_block_binary : forall (N : num) (c : conv_params) BK (w b : list (T N)) id,
  w <> [] ->
  In ("weights_" ++ id, block_layout N c BK w)%string
     (bin_definitions (mkPlayer id (Some w) (Some (block_layout N c BK w)) None (Some b) None None None)).
Proof. intros. left. reflexivity. Qed.
Print Assumptions C53_direct_block_binary.
Theorem C53_direct_block_c_file_refuted : exists (c : conv_params) BK (w b x : list Z) id wl,
  conv_dims Znum c w b x /\ dilation c = 1 /\ pt c = pl c /\ 0 < BK /\ nf c mod BK = 0 /\
  let l := mkPlayer id (Some w) (Some (block_layout Znum c BK w)) None (Some b) None None None in
  In ("weights_" ++ id, wl)%string (c_definitions l) /\
  exists r, result_of (direct_block_c Znum (Out 0) (Out 0) c BK wl b (fun v => v)
                (mem_of [(Out 0, x); (Temp, repeat 0 8)])) (Out 0) 8 = Some r /\
  r <> convolution_hwc Znum c w b (fun v => v) x.
Proof.
  exists ex_hwc, 2, [1;2;3;4; 5;6;7;8; 9;10;11;12; 13;14;15;16], [100; 200], (ramp 18), "Conv2D_01"%string.
  eexists. split; [constructor; cbn; try lia; reflexivity|]. split; [reflexivity|]. split; [reflexivity|]. split; [lia|]. split; [reflexivity|].
  cbv zeta. split; [left; reflexivity|]. eexists. split; [vm_compute; reflexivity|]. vm_compute. congruence.
Qed.
Print Assumptions C53_direct_block_c_file_refuted.
Example C53_example :
  let l := mkPlayer "Conv2D_01" (Some [1; 2]) None None (Some [3]) None (Some ([4], [5], [6])) None in
  norm_consistent l /\ externs l = [("weights_Conv2D_01", 2); ("biases_Conv2D_01", 1); ("mean_Conv2D_01", 1); ("var_Conv2D_01", 1); ("scale_Conv2D_01", 1)]%string.
Proof. split; [split; reflexivity|reflexivity]. Qed.

(** The values under each name are those of the attribute the layer's code
    means by that name. *)
Definition attribute {V} (prefix : string) (l : player V) : option (list V) :=
  if String.eqb prefix "weights_" then match p_constant l with Some c => Some c | None => p_weights l end
  else if String.eqb prefix "biases_" then p_biases l
  else if String.eqb prefix "ppatches_" then p_patches l
  else if String.eqb prefix "mean_" then option_map (fun n => fst (fst n)) (p_norm l)
  else if String.eqb prefix "var_" then option_map (fun n => snd (fst n)) (p_norm l)
  else if String.eqb prefix "scale_" then option_map snd (p_norm l)
  else if String.eqb prefix "constant_" then p_operand l
  else None.
Theorem C53_names_hold_attributes : forall (V : Type) (l : player V) s v,
  In (s, v) (c_definitions l) \/ (p_layout l = None /\ In (s, v) (bin_definitions l)) ->
  exists prefix, s = (prefix ++ p_id l)%string /\ attribute prefix l = Some v.
Proof.
  intros V l s v H.
  assert (EI : forall o nm, In (s, v) (entry o (fun w => [(nm, w)])) -> o = Some v /\ s = nm).
  { intros [[|a w]|] nm HH; cbn in HH; try tauto. destruct HH as [HH|[]]. injection HH as <- <-. auto. }
  assert (EN : forall p, attribute p l = Some v -> s = sym p l -> exists prefix, s = (prefix ++ p_id l)%string /\ attribute prefix l = Some v) by eauto.
  assert (NORM : forall mean var scale, p_norm l = Some (mean, var, scale) ->
    In (s, v) [(sym "mean_" l, mean); (sym "var_" l, var); (sym "scale_" l, scale)] ->
    exists prefix, s = (prefix ++ p_id l)%string /\ attribute prefix l = Some v).
  { intros mean var scale EN' [E|[E|[E|[]]]]; injection E as <- <-;
      [apply (EN "mean_"%string)|apply (EN "var_"%string)|apply (EN "scale_"%string)]; try reflexivity; cbn; rewrite EN'; reflexivity. }
  destruct H as [H|[HL H]].
  - unfold c_definitions in H. repeat (apply in_app_or in H as [H|H]).
    + apply EI in H as [H ->]. apply (EN "weights_"%string); [exact H|reflexivity].
    + apply EI in H as [H ->]. apply (EN "biases_"%string); [exact H|reflexivity].
    + apply EI in H as [H ->]. apply (EN "ppatches_"%string); [exact H|reflexivity].
    + destruct (p_norm l) as [[[mean var] scale]|] eqn:E; [|destruct H]. apply (NORM mean var scale eq_refl).
      destruct mean; [destruct H|exact H].
    + apply EI in H as [H ->]. apply (EN "constant_"%string); [exact H|reflexivity].
  - unfold bin_definitions in H. rewrite HL in H. apply in_app_or in H as [H|H]; [|apply in_app_or in H as [H|H]].
    + assert (X : match p_constant l with Some c => Some c | None => p_weights l end = Some v /\ s = sym "weights_" l).
      { destruct (p_constant l); [|destruct (p_weights l); [|destruct H]]; destruct H as [H|[]]; injection H as <- <-; auto. }
      apply (EN "weights_"%string); apply X.
    + assert (X : p_biases l = Some v /\ s = sym "biases_" l).
      { destruct (p_biases l); [|destruct H]; destruct H as [H|[]]; injection H as <- <-; auto. }
      apply (EN "biases_"%string); apply X.
    + destruct (p_norm l) as [[[mean var] scale]|] eqn:E; [|destruct H]. apply (NORM mean var scale eq_refl H).
Qed.
Print Assumptions C53_names_hold_attributes.
Example C53_names_example :
  In ("var_BatchNormalization_03"%string, [5]) (c_definitions (mkPlayer "BatchNormalization_03" None None None (Some [3]) None (Some ([4], [5], [6])) None)).
Proof. cbn. tauto. Qed.
