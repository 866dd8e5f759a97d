(** * Property C65: nodes the ONNX importer does not turn into layers. *)
From Coq Require Import ZArith List Lia Bool Reals Lra.
Import ListNotations.
Open Scope Z_scope.
From Verif Require Import CMem Num OnnxSpec OnnxOpsProofs OnnxMiscSpec OnnxMisc PropertiesMovement.

Lemma prod_app a b : prod (a ++ b) = prod a * prod b.
Proof. induction a as [|n a IH]; cbn [app prod]; [lia|]. rewrite IH. ring. Qed.
Lemma offset_app a b i j : length a = length i -> offset (a ++ b) (i ++ j) = offset a i * prod b + offset b j.
Proof.
  revert i. induction a as [|n a IH]; intros [|k i] HL; cbn in HL; try discriminate; cbn [app offset]; [lia|].
  rewrite IH by lia. rewrite prod_app. ring.
Qed.
Lemma inside_length ds idx : inside ds idx -> length ds = length idx.
Proof. intros HI. induction HI; cbn; congruence. Qed.

(** ** Elements of bypassed tensors. *)
Theorem C65_reshape : forall (V : Type) (d : V) ds ods x,
  prod ods = prod ds -> zlen x = prod ds -> reshaped d ds ods x (bypass_value BReshape x).
Proof.
  intros V d ds ods x E Hx. split; [unfold bypass_value; lia|]. intros idx jdx _ _ EO. unfold el, bypass_value. rewrite EO. reflexivity.
Qed.
Print Assumptions C65_reshape.
Theorem C65_flatten : forall (V : Type) (d : V) ds a x,
  (a <= length ds)%nat -> zlen x = prod ds -> flattened d ds a x (bypass_value BFlatten x).
Proof.
  intros V d ds a x Ha Hx. unfold flattened, bypass_value. cbv zeta.
  assert (EP : prod (firstn a ds) * prod (skipn a ds) = prod ds) by (rewrite <- prod_app, firstn_skipn; reflexivity).
  split; [cbn [prod]; lia|]. intros idx HI. unfold el. f_equal.
  rewrite <- (firstn_skipn a ds) at 5. rewrite <- (firstn_skipn a idx) at 3.
  rewrite offset_app by (rewrite !firstn_length, (inside_length _ _ HI); reflexivity). cbn [offset prod]. ring.
Qed.
Print Assumptions C65_flatten.
Theorem C65_unsqueeze : forall (V : Type) (d : V) ds p x,
  (p <= length ds)%nat -> zlen x = prod ds -> unsqueezed d ds p x (bypass_value BUnsqueeze x).
Proof.
  intros V d ds p x Hp Hx. unfold unsqueezed, bypass_value, insert_at.
  assert (EP : prod (firstn p ds) * prod (skipn p ds) = prod ds) by (rewrite <- prod_app, firstn_skipn; reflexivity).
  split; [rewrite prod_app; cbn [prod]; lia|]. intros idx HI. unfold el. f_equal.
  rewrite <- (firstn_skipn p ds) at 3. rewrite <- (firstn_skipn p idx) at 3.
  rewrite !offset_app by (rewrite !firstn_length, (inside_length _ _ HI); reflexivity). cbn [offset prod]. ring.
Qed.
Print Assumptions C65_unsqueeze.
Example C65_example :
  flattened 0 [2; 2; 3] 1 (ramp 12) (bypass_value BFlatten (ramp 12)) /\
  el 0 [2; 6] (ramp 12) [1; 4] = el 0 [2; 2; 3] (ramp 12) [1; 1; 1] /\ el 0 [2; 6] (ramp 12) [1; 4] = 10.
Proof. split; [apply C65_flatten; [cbn; lia|reflexivity]|]. split; reflexivity. Qed.

(** LRN and Shape nodes are not: their input is passed on. *)
Theorem C65_lrn_refuted : forall x alpha bias : R, (x <> 0)%R -> (0 < alpha)%R -> (1 <= bias)%R ->
  bypass_value BLrn [x] <> [lrn1 alpha bias x].
Proof.
  intros x alpha bias Hx Ha Hb E. injection E as E. unfold lrn1 in E.
  assert (Q : (0 < x * x)%R) by (apply Rsqr_pos_lt; exact Hx).
  assert (D : (1 < bias + alpha * (x * x))%R) by (pose proof (Rmult_lt_0_compat _ _ Ha Q); lra).
  assert (E2 : (x * (bias + alpha * (x * x)) = x)%R) by (rewrite E at 1; field; lra).
  assert (E3 : (bias + alpha * (x * x) = 1)%R) by (apply (Rmult_eq_reg_l x); lra). lra.
Qed.
Print Assumptions C65_lrn_refuted.
Theorem C65_shape_refuted : exists ds x, zlen x = prod ds /\ bypass_value BShape x <> shape_value ds.
Proof. exists [1; 2], [7; 8]. split; [reflexivity|]. discriminate. Qed.
Print Assumptions C65_shape_refuted.

(** ** Constant nodes: only scalars stored as raw data can be read back. *)
Theorem C65_constant_scalar : forall (V : Type) (v : V),
  to_array (create_initializer [] (Raw [v])) = Some ([], [v]).
Proof. reflexivity. Qed.
Print Assumptions C65_constant_scalar.
Theorem C65_constant_refuted : forall (V : Type) dims (data : tensor_data V),
  (forall v, data <> Raw [v]) -> to_array (create_initializer dims data) = None.
Proof.
  intros V dims [l|l|] H; try reflexivity. destruct l as [|v [|w l]]; [reflexivity| |].
  - destruct (H v). reflexivity.
  - cbn [create_initializer to_array snd fst fold_right]. rewrite !zlen_cons. pose proof (zlen_nonneg l).
    destruct (Z.eqb_spec (1 + (1 + zlen l)) 1); [lia|reflexivity].
Qed.
Print Assumptions C65_constant_refuted.
(** A vector of one element loses its dimension. *)
Theorem C65_constant_dims_refuted : forall (V : Type) (v : V), to_array (create_initializer [1] (Raw [v])) = Some ([], [v]).
Proof. reflexivity. Qed.
Print Assumptions C65_constant_dims_refuted.
