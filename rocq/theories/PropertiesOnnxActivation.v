(** * Property C64: an imported ONNX activation node has its ONNX meaning
    (OnnxMiscSpec.v). *)
From Coq Require Import ZArith List Lia Bool Reals Lra.
Import ListNotations.
Open Scope Z_scope.
From Verif Require Import CMem Tensor Num RealInst NumInst Activation PropertiesActivation PropertiesMovement
  OnnxSpec OnnxOps OnnxOpsProofs PropertiesOnnxReduce OnnxMiscSpec OnnxMisc.

(** The node of the file for an operator whose Clip bounds are vectors of one
    element. *)
Definition bound_of (b : option R) : clip_bound R := match b with Some v => BoundVector [v] | None => BoundEmpty end.
Definition node_of (op : unary_op) : activation_node R :=
  match op with
  | ORelu => NRelu | OTanh => NTanh | OSigmoid => NSigmoid | OExp => NExp | OLog => NLog
  | OLeakyRelu alpha => NLeakyRelu alpha
  | OClip mn mx => NClip (bound_of mn) (bound_of mx)
  end.
(** Accepted parameters: a slope that is not negative; two bounds, in order. *)
Definition parameters_ok (op : unary_op) : Prop :=
  match op with
  | OLeakyRelu (Some a) => (0 <= a)%R
  | OClip mn mx => exists a b, mn = Some a /\ mx = Some b /\ (a <= b)%R
  | _ => True
  end.

Section Values.
  Local Open Scope R_scope.
  Lemma tanh_quotient x : tanh x = (exp x - exp (- x)) / (exp x + exp (- x)).
  Proof. unfold tanh, sinh, cosh. pose proof (exp_pos x). pose proof (exp_pos (- x)). field. lra. Qed.
End Values.
Lemma imported_value op : parameters_ok op -> exists a,
  instantiate_activation Rnum (1 / 100)%R (node_of op) = Some (WithCode a) /\ accepted Rnum a /\ forall v, intended a v = onnx_unary op v.
Proof.
  intros HP. destruct op as [| | | | |alpha|mn mx]; cbn [node_of instantiate_activation].
  - eexists. split; [reflexivity|]. split; [exact I|]. intros v. apply Rmax_comm.
  - eexists. split; [reflexivity|]. split; [exact I|]. intros v. apply tanh_quotient.
  - eexists. split; [reflexivity|]. split; [exact I|]. intros v. cbn [intended onnx_unary]. unfold Rdiv. apply Rmult_1_l.
  - eexists. split; [reflexivity|]. split; [exact I|]. reflexivity.
  - eexists. split; [reflexivity|]. split; [exact I|]. reflexivity.
  - set (a := match alpha with Some a => a | None => (1 / 100)%R end).
    assert (Ha : (0 <= a)%R) by (unfold a; destruct alpha; [exact HP|lra]).
    exists (LeakyReLu (a : T Rnum)). assert (E : Rltb a 0 = false) by (unfold Rltb; destruct (Rlt_dec a 0); [lra|reflexivity]).
    split.
    { transitivity (if Rltb a 0 then None else Some (WithCode (LeakyReLu (a : T Rnum)))); [reflexivity|]. rewrite E. reflexivity. } split; [exact E|]. intros v. reflexivity.
  - destruct HP as (a & b & -> & -> & Hab). cbn [bound_of bound_value bind].
    assert (E : nlt Rnum b a = false) by (cbn [nlt Rnum]; unfold Rltb; destruct (Rlt_dec b a); [lra|reflexivity]).
    rewrite E. eexists. split; [reflexivity|]. split; [exact E|]. intros v. reflexivity.
Qed.

(** ** C64.  Any tensor; the layer may write over its input. *)
Theorem C64_activation_partial : forall op raw_out x,
  parameters_ok op -> Forall (fun n => 0 <= n) raw_out -> zlen x = prod (run_dims raw_out) ->
  exists l, create_activation Rnum (1 / 100)%R (node_of op) raw_out = Some l /\
    forall src out, layer_ok (imported_activation_c Rnum l src out) [(src, x)] out 0 (prod (run_dims raw_out)) (map (onnx_unary op) x).
Proof.
  intros op raw_out x HP HR Hx. destruct (imported_value op HP) as (a & E & A & V).
  exists (prod (run_dims raw_out), WithCode a). split.
  - unfold create_activation. rewrite E. cbn [bind]. rewrite find_size_prod by exact HR. reflexivity.
  - intros src out. cbn [imported_activation_c snd fst].
    assert (C : forall v : R, compute Rnum a v = onnx_unary op v).
    { intros v. rewrite <- V. pose proof (C32_activation_real a v A) as G.
      rewrite (C32_activation Rnum a v (fl_ring _ Rnum_field) Rnum_order A) in G. congruence. }
    replace (map (onnx_unary op) x) with (activation_py Rnum a x).
    + apply C32_activation_layer; [rewrite <- Hx; apply zlen_nonneg|exact Hx|].
      intros v. apply (C32_activation Rnum a v (fl_ring _ Rnum_field) Rnum_order A).
    + unfold activation_py. apply map_ext. exact C.
Qed.
Print Assumptions C64_activation_partial.

Example C64_example :
  parameters_ok (OClip (Some 0%R) (Some 6%R)) /\ parameters_ok (OLeakyRelu None) /\
  zlen [1%R; 2%R; (-3)%R; 4%R; 5%R; 6%R] = prod (run_dims [0; 3; 2]) /\
  onnx_unary (OClip (Some 0%R) (Some 6%R)) (-3)%R = 0%R /\
  onnx_unary (OLeakyRelu None) (-3)%R = (-3 / 100)%R.
Proof.
  split; [exists 0%R, 6%R; repeat split; lra|]. split; [exact I|]. split; [reflexivity|]. cbn [onnx_unary]. split.
  - rewrite Rmax_left by lra. rewrite Rmin_right by lra. reflexivity.
  - destruct (Rlt_dec (-3) 0); lra.
Qed.

(** What is missing.  1. Bounds as ONNX defines them (tensors of rank zero) are
    rejected, so is a Clip node without both of them in its list of inputs, or
    with a computed one. *)
Theorem C64_clip_scalar_refuted : forall N c mn mx raw_out,
  (exists v, mn = BoundScalar v) \/ mn = BoundMissing \/ mn = BoundComputed \/ (exists v, mx = BoundScalar v) \/ mx = BoundMissing \/ mx = BoundComputed ->
  create_activation N c (NClip mn mx) raw_out = None.
Proof.
  intros N c mn mx raw_out [(v & ->)|[-> |[-> |[(v & ->)|[-> | ->]]]]]; unfold create_activation; cbn [instantiate_activation bound_value bind]; try reflexivity;
    destruct (bound_value mn); reflexivity.
Qed.
Print Assumptions C64_clip_scalar_refuted.
(** 2. With an omitted (empty) bound the layer is built, but its generated code
    is not C. *)
Theorem C64_clip_open_refuted : forall (op : unary_op) b raw_out,
  op = OClip None (Some b) \/ op = OClip (Some b) None \/ op = OClip None None ->
  exists l, create_activation Rnum (1 / 100)%R (node_of op) raw_out = Some l /\
    forall src out m, imported_activation_c Rnum l src out m = None.
Proof.
  intros op b raw_out [-> |[-> | ->]]; (eexists; split; [reflexivity|]; intros; reflexivity).
Qed.
Print Assumptions C64_clip_open_refuted.
(** 3. Bounds in the wrong order (ONNX: every element is the maximum) and
    negative slopes are rejected. *)
Theorem C64_parameters_refuted :
  (forall a b raw_out, (b < a)%R -> create_activation Rnum (1 / 100)%R (node_of (OClip (Some a) (Some b))) raw_out = None /\
     forall x, onnx_unary (OClip (Some a) (Some b)) x = b) /\
  (forall a raw_out, (a < 0)%R -> create_activation Rnum (1 / 100)%R (node_of (OLeakyRelu (Some a))) raw_out = None).
Proof.
  split.
  - intros a b raw_out Hab. split.
    + unfold create_activation. cbn [node_of bound_of instantiate_activation bound_value bind nlt Rnum]. unfold Rltb.
      destruct (Rlt_dec b a); [reflexivity|lra].
    + intros x. cbn [onnx_unary]. apply Rmin_left. pose proof (Rmax_l a x). lra.
  - intros a raw_out Ha. unfold create_activation. cbn [node_of instantiate_activation nlt n0 Rnum]. unfold Rltb.
    destruct (Rlt_dec a 0); [reflexivity|lra].
Qed.
Print Assumptions C64_parameters_refuted.
