(** * C78: rounding errors of the generated program. *)
From Coq Require Import ZArith List Lia Bool QArith Reals Lra.
Import ListNotations.
From Verif Require Import CMem Tensor Num RealInst Activation Movement Linear Conv Pooling Pad Reduce Resize Graph GraphSpec Net NetProofs.
From Verif Require Broadcast BroadcastProofs.
From Verif Require Import PropertiesActivation PropertiesPooling PropertiesPad PropertiesLinear PropertiesConv LayerKinds ModelProofs PropertiesNet PropertiesGraph Rounding RoundingProofs RoundingLayers.
Open Scope R_scope.
Open Scope list_scope.

(** ** One layer: a sum of n rounded products. *)
Section Sums.
  Context (F : format).
  Notation FN := (fnum F).
  Fixpoint rsum (n : nat) (f : Z -> R) : R := match n with O => 0 | S n' => rsum n' f + f (Z.of_nat n') end.
  Lemma rsum_nsum n f : (0 <= n)%Z -> nsum Rnum n f = rsum (Z.to_nat n) f.
  Proof.
    revert n. apply for_ind; [rewrite nsum_0 by lia; reflexivity|]. intros n Hn IH. rewrite nsum_succ by lia. cbn [nadd Rnum].
    rewrite IH. replace (Z.to_nat (n + 1)) with (S (Z.to_nat n)) by lia. cbn [rsum]. rewrite Z2Nat.id by lia. reflexivity.
  Qed.
  Lemma rsum_pos n f : (forall k, 0 <= f k) -> 0 <= rsum n f.
  Proof. intros H. induction n; cbn [rsum]; [lra|]. pose proof (H (Z.of_nat n)). lra. Qed.
  Lemma rsum_abs n f : Rabs (rsum n f) <= rsum n (fun k => Rabs (f k)).
  Proof. induction n; cbn [rsum]; [rewrite Rabs_R0; lra|]. eapply Rle_trans; [apply Rabs_triang|lra]. Qed.
  Lemma dot_error n (a b : Z -> float F) : (0 <= n)%Z ->
    Rabs (val (nsum FN n (fun k => nmul FN (a k) (b k))) - rsum (Z.to_nat n) (fun k => val (a k) * val (b k)))
    <= ((1 + uu F) ^ (Z.to_nat n + 1) - 1) * rsum (Z.to_nat n) (fun k => Rabs (val (a k) * val (b k))) + 2 * INR (Z.to_nat n) * (1 + uu F) ^ (Z.to_nat n) * eta F.
  Proof.
    pose proof (uu_pos F) as U0. pose proof (eta_pos F) as E0. set (u := uu F) in *. set (e := eta F) in *.
    revert n. apply for_ind.
    - rewrite nsum_0 by lia. cbn [n0 fnum Z.to_nat rsum]. rewrite val_fl, rnd_0. cbn. rewrite Rminus_0_r, Rabs_R0. lra.
    - intros n Hn IH. rewrite nsum_succ by lia. cbn [nadd nmul fnum]. rewrite val_fl.
      replace (Z.to_nat (n + 1)) with (S (Z.to_nat n)) by lia. cbn [rsum]. rewrite !(Z2Nat.id n) by lia.
      set (k := Z.to_nat n) in *. set (s' := val (nsum FN n _)) in *. set (s := rsum k (fun k => val (a k) * val (b k))) in *. set (A := rsum k (fun k => Rabs (val (a k) * val (b k)))) in *.
      set (p := val (a n) * val (b n)). rewrite val_fl. fold p.
      assert (A0 : 0 <= A) by (apply rsum_pos; intros; apply Rabs_pos). assert (SA : Rabs s <= A) by (apply rsum_abs).
      pose proof (rnd_err F p) as EP. fold u e in EP. set (p' := rnd F p) in *.
      pose proof (rnd_err F (s' + p')) as ER. fold u e in ER.
      set (D := ((1 + u) ^ (k + 1) - 1) * A + 2 * INR k * (1 + u) ^ k * e) in *.
      assert (S1 : Rabs (s' + p') <= A + D + (1 + u) * Rabs p + e).
      { replace (s' + p') with ((s' - s) + s + (p' - p) + p) by ring. eapply Rle_trans; [apply Rabs_triang|]. eapply Rle_trans; [apply Rplus_le_compat_r, Rabs_triang|].
        eapply Rle_trans; [apply Rplus_le_compat_r, Rplus_le_compat_r, Rabs_triang|]. lra. }
      assert (S2 : u * Rabs (s' + p') <= u * (A + D + (1 + u) * Rabs p + e)) by (apply Rmult_le_compat_l; assumption).
      assert (S3 : Rabs (rnd F (s' + p') - (s + p)) <= (1 + u) * D + u * A + ((1 + u) ^ 2 - 1) * Rabs p + (2 + u) * e).
      { replace (rnd F (s' + p') - (s + p)) with ((rnd F (s' + p') - (s' + p')) + (s' - s) + (p' - p)) by ring.
        eapply Rle_trans; [apply Rabs_triang|]. eapply Rle_trans; [apply Rplus_le_compat_r, Rabs_triang|]. nra. }
      eapply Rle_trans; [exact S3|]. unfold D. rewrite S_INR.
      assert (P1 : 1 <= (1 + u) ^ k) by (apply pow_R1_Rle; lra).
      assert (Q0 : 0 <= Rabs p) by apply Rabs_pos. assert (K0 : 0 <= INR k) by apply pos_INR.
      replace ((1 + u) ^ (S k + 1)) with ((1 + u) * ((1 + u) * (1 + u) ^ k)) by (replace (S k + 1)%nat with (S (S k)) by lia; reflexivity).
      replace ((1 + u) ^ (k + 1)) with ((1 + u) * (1 + u) ^ k) by (replace (k + 1)%nat with (S k) by lia; reflexivity).
      cbn [pow]. set (g := (1 + u) ^ k) in *.
      assert (R1 : ((1 + u) * ((1 + u) * 1) - 1) * Rabs p <= ((1 + u) * ((1 + u) * g) - 1) * Rabs p) by (apply Rmult_le_compat_r; [exact Q0|]; nra).
      assert (R2 : (2 + u) * e <= 2 * ((1 + u) * g) * e) by (apply Rmult_le_compat_r; [exact E0|]; nra).
      nra.
  Qed.
  (** The sum, a bias added. *)
  Lemma biased_error n (a b : Z -> float F) (c : float F) : (0 <= n)%Z ->
    Rabs (val (nadd FN (nsum FN n (fun k => nmul FN (a k) (b k))) c) - (rsum (Z.to_nat n) (fun k => val (a k) * val (b k)) + val c))
    <= ((1 + uu F) ^ (Z.to_nat n + 2) - 1) * (rsum (Z.to_nat n) (fun k => Rabs (val (a k) * val (b k))) + Rabs (val c))
       + (2 * INR (Z.to_nat n) + 1) * (1 + uu F) ^ (Z.to_nat n + 1) * eta F.
  Proof.
    intros Hn. pose proof (dot_error n a b Hn) as HD. pose proof (uu_pos F) as U0. pose proof (eta_pos F) as E0. set (u := uu F) in *. set (e := eta F) in *.
    set (k := Z.to_nat n) in *. set (s' := nsum FN n _) in *. set (s := rsum k (fun k => val (a k) * val (b k))) in *. set (A := rsum k (fun k => Rabs (val (a k) * val (b k)))) in *. cbn [nadd fnum]. rewrite val_fl.
    assert (A0 : 0 <= A) by (apply rsum_pos; intros; apply Rabs_pos). assert (SA : Rabs s <= A) by (apply rsum_abs).
    pose proof (rnd_err F (val s' + val c)) as ER. fold u e in ER. set (D := ((1 + u) ^ (k + 1) - 1) * A + 2 * INR k * (1 + u) ^ k * e) in *.
    assert (S1 : Rabs (val s' + val c) <= A + D + Rabs (val c)).
    { replace (val s' + val c) with ((val s' - s) + s + val c) by ring. eapply Rle_trans; [apply Rabs_triang|]. eapply Rle_trans; [apply Rplus_le_compat_r, Rabs_triang|]. lra. }
    assert (S2 : u * Rabs (val s' + val c) <= u * (A + D + Rabs (val c))) by (apply Rmult_le_compat_l; assumption).
    assert (S3 : Rabs (rnd F (val s' + val c) - (s + val c)) <= (1 + u) * D + u * (A + Rabs (val c)) + e).
    { replace (rnd F (val s' + val c) - (s + val c)) with ((rnd F (val s' + val c) - (val s' + val c)) + (val s' - s)) by ring. eapply Rle_trans; [apply Rabs_triang|]. lra. }
    eapply Rle_trans; [exact S3|]. unfold D. assert (P1 : 1 <= (1 + u) ^ k) by (apply pow_R1_Rle; lra).
    assert (Q0 : 0 <= Rabs (val c)) by apply Rabs_pos. assert (K0 : 0 <= INR k) by apply pos_INR.
    replace ((1 + u) ^ (k + 2)) with ((1 + u) * ((1 + u) * (1 + u) ^ k)) by (replace (k + 2)%nat with (S (S k)) by lia; reflexivity).
    replace ((1 + u) ^ (k + 1)) with ((1 + u) * (1 + u) ^ k) by (replace (k + 1)%nat with (S k) by lia; reflexivity). set (g := (1 + u) ^ k) in *.
    assert (R1 : u * Rabs (val c) <= ((1 + u) * ((1 + u) * g) - 1) * Rabs (val c)) by (apply Rmult_le_compat_r; [exact Q0|]; nra).
    assert (R2 : e <= (1 + u) * g * e) by (rewrite <- (Rmult_1_l e) at 1; apply Rmult_le_compat_r; [exact E0|]; nra).
    nra.
  Qed.
End Sums.

(** The code of a Dense layer (linear activation) on floating-point numbers: each
    output is at most this far from the exact one. *)
Theorem C78_dense : forall (F : format) src out prev size w b x,
  out <> Temp -> src <> Temp -> (0 <= prev)%Z -> (0 <= size)%Z -> zlen x = prev -> (zlen w = prev * size)%Z -> zlen b = size ->
  exists y, layer_ok (dense_c (fnum F) src out prev size w b (fun v => v)) [(src, x)] out size size y /\
  forall i, (0 <= i < size)%Z ->
    let X j := val (nthZ (fl F 0) x j) in let W j := val (nthZ (fl F 0) w (i + size * j)) in let B := val (nthZ (fl F 0) b i) in
    let n := Z.to_nat prev in
    Rabs (val (nthZ (fl F 0) y i) - (rsum n (fun j => X j * W j) + B))
    <= ((1 + uu F) ^ (n + 2) - 1) * (rsum n (fun j => Rabs (X j * W j)) + Rabs B) + (2 * INR n + 1) * (1 + uu F) ^ (n + 1) * eta F.
Proof.
  intros F src out prev size w b x H1 H2 H3 H4 H5 H6 H7. eexists. split; [apply (C11_dense (fnum F)); assumption|].
  intros i Hi X W B n. rewrite nthZ_tab by exact Hi. exact (biased_error F prev (fun j => nthZ (fl F 0) x j) (fun j => nthZ (fl F 0) w (i + size * j)) (nthZ (fl F 0) b i) H3).
Qed.
Print Assumptions C78_dense.

(** The code of a Gemm layer (alpha = beta = 1, linear activation), whichever operands are
    transposed: [A], [B] are the operands as multiplied. *)
Theorem C78_gemm : forall (F : format) src out tA tB rows cols inner w b x,
  out <> Temp -> src <> Temp -> (0 <= rows)%Z -> (0 <= cols)%Z -> (0 <= inner)%Z ->
  zlen x = (rows * inner)%Z -> zlen w = (inner * cols)%Z -> zlen b = cols ->
  exists y, layer_ok (gemm_c (fnum F) src out tA tB None None rows cols inner w b (fun v => v)) [(src, x)] out (rows * cols) (rows * cols) y /\
  forall i j, (0 <= i < rows)%Z -> (0 <= j < cols)%Z ->
    let A p := val (nthZ (fl F 0) x (if tA then p * rows + i else i * inner + p)) in
    let B p := val (nthZ (fl F 0) w (if tB then j * inner + p else p * cols + j)) in
    let c := val (nthZ (fl F 0) b j) in let n := Z.to_nat inner in
    Rabs (val (nthZ (fl F 0) y (i * cols + j)) - (rsum n (fun p => A p * B p) + c))
    <= ((1 + uu F) ^ (n + 2) - 1) * (rsum n (fun p => Rabs (A p * B p)) + Rabs c) + (2 * INR n + 1) * (1 + uu F) ^ (n + 1) * eta F.
Proof.
  intros F src out tA tB rows cols inner w b x H1 H2 H3 H4 H5 H6 H7 H8. eexists. split; [apply (C13_gemm_any_arithmetic (fnum F)); assumption|].
  intros i j Hi Hj A B c n. unfold tab2. rewrite nthZ_tab by nia.
  replace ((i * cols + j) / cols)%Z with i by (apply Z.div_unique with j; lia). replace ((i * cols + j) mod cols)%Z with j by (apply Z.mod_unique with i; lia).
  cbv zeta. cbn [scaled].
  pose proof (biased_error F inner (fun p => nthZ (fl F 0) x (if tA then p * rows + i else i * inner + p)%Z) (fun p => nthZ (fl F 0) w (if tB then j * inner + p else p * cols + j)%Z) (nthZ (fl F 0) b j) H5) as BE.
  cbv beta in BE. match type of BE with Rabs (val (nadd _ ?s' _) - _) <= _ => match goal with |- Rabs (val (nadd _ ?s _) - _) <= _ =>
    assert (E : s = s'); [|rewrite E; exact BE] end end.
  apply nsum_ext. intros p _. f_equal; unfold at2.
  - destruct tA; f_equal; ring.
  - destruct tB; f_equal; ring.
Qed.
Print Assumptions C78_gemm.

(** The code of a convolution (six loops, linear activation): the error is at most
    that factor of the same convolution of the absolute values. *)
Lemma nthZ_map {A B} (f : A -> B) d l k : nthZ (f d) (map f l) k = f (nthZ d l k).
Proof. unfold nthZ, rdl. destruct (k <? 0)%Z; [reflexivity|]. rewrite nth_error_map. destruct (nth_error l (Z.to_nat k)); reflexivity. Qed.
Lemma map_id_tab3 {A} C H W (f : Z -> Z -> Z -> A) : map (fun v => v) (tab3 C H W f) = tab3 C H W f.
Proof. apply map_id. Qed.
Definition absolute {F} (l : list (float F)) : list R := map (fun v => Rabs (val v)) l.
Theorem C78_convolution : forall (F : format) src out c w b x,
  out <> Temp -> src <> Temp -> conv_dims (fnum F) c w b x ->
  exists y, layer_ok (conv6_c (fnum F) src out c w b (fun v => v)) [(src, x)] out (nf c * oh c * ow c) (nf c * oh c * ow c) y /\
  forall k, (0 <= k < nf c * oh c * ow c)%Z ->
    let n := Z.to_nat (ic c * kh c * kw c) in
    Rabs (val (nthZ (fl F 0) y k) - nthZ 0 (convolution Rnum c (map val w) (map val b) (fun v => v) (map val x)) k)
    <= ((1 + uu F) ^ (n + 2) - 1) * nthZ 0 (convolution Rnum c (absolute w) (absolute b) (fun v => v) (absolute x)) k
       + (2 * INR n + 1) * (1 + uu F) ^ (n + 1) * eta F.
Proof.
  intros F src out c w b x H1 H2 D. eexists. split; [apply (C14_six_loops (fnum F) (float_zero_product F)); assumption|].
  intros k Hk n. unfold convolution. rewrite !map_id_tab3. unfold tab3. rewrite !nthZ_tab by exact Hk.
  set (f := (k / (oh c * ow c))%Z). set (i := ((k / ow c) mod oh c)%Z). set (j := (k mod ow c)%Z). unfold nsum3.
  assert (NN : (0 <= ic c * kh c * kw c)%Z) by (destruct D; apply Z.mul_nonneg_nonneg; [apply Z.mul_nonneg_nonneg|]; assumption).
  set (a := fun m => zero_padded (N := fnum F) (ih c) (iw c) x (m / (kh c * kw c)) (i * strides c + (m / kw c) mod kh c * dilation c - pt c) (j * strides c + m mod kw c * dilation c - pl c)).
  set (g := fun m => at3 (fl F 0) (kh c) (kw c) w (m / (kh c * kw c) + ic c * f) ((m / kw c) mod kh c) (m mod kw c)).
  pose proof (biased_error F (ic c * kh c * kw c) a g (nthZ (fl F 0) b f) NN) as BE. cbn [nadd Rnum]. rewrite !(rsum_nsum (ic c * kh c * kw c)) by exact NN.
  assert (V0 : val (fl F 0) = 0) by (rewrite val_fl; apply rnd_0).
  assert (A0 : Rabs (val (fl F 0)) = 0) by (rewrite V0; apply Rabs_R0).
  assert (RE : forall m h h', (forall p, h p = h' p) -> rsum m h = rsum m h') by (intros m h h' E; induction m; cbn [rsum]; [reflexivity|rewrite IHm, E; reflexivity]).
  assert (EV : forall H W l p r s, at3 0 H W (map val l) p r s = val (at3 (fl F 0) H W l p r s)) by (intros; unfold at3; rewrite <- V0 at 1; apply nthZ_map).
  assert (EA : forall H W l p r s, at3 0 H W (absolute l) p r s = Rabs (val (at3 (fl F 0) H W l p r s))) by (intros; unfold at3, absolute; rewrite <- A0 at 1; apply (nthZ_map (fun v => Rabs (val v)))).
  replace (nthZ (n0 Rnum) (map val b) f) with (val (nthZ (fl F 0) b f)) by (symmetry; cbn [n0 Rnum]; rewrite <- V0 at 1; apply nthZ_map).
  replace (nthZ (n0 Rnum) (absolute b) f) with (Rabs (val (nthZ (fl F 0) b f))) by (symmetry; cbn [n0 Rnum]; rewrite <- A0 at 1; apply (nthZ_map (fun v => Rabs (val v)))).
  change (Z.to_nat (ic c * kh c * kw c)) with n.
  match goal with |- Rabs (_ - (rsum n ?h + _)) <= _ * (rsum n ?h' + _) + _ =>
    assert (X1 : rsum n h = rsum n (fun m => val (a m) * val (g m))); [apply RE|assert (X2 : rsum n h' = rsum n (fun m => Rabs (val (a m) * val (g m)))); [apply RE|rewrite X1, X2; exact BE]] end.
  - intros m. cbn [nmul n0 Rnum]. unfold zero_padded. cbn [n0 Rnum]. rewrite !EV. f_equal. unfold a, zero_padded. destruct (_ && _); [reflexivity|]. symmetry. exact V0.
  - intros m. cbn [nmul n0 Rnum]. rewrite Rabs_mult. unfold zero_padded. cbn [n0 Rnum]. rewrite !EA. f_equal. unfold a, zero_padded. destruct (_ && _); [reflexivity|]. symmetry. exact A0.
Qed.
Print Assumptions C78_convolution.

(** ** The whole network. *)
Lemma ops_of (F : format) (v1 : nat -> list (float F)) (v2 : nat -> list R) (v3 : nat -> list bnd) ps :
  (forall p, In p ps -> all_about (v1 p) (v2 p) (v3 p)) -> all_ops F (map v1 ps) (map v2 ps) (map v3 ps).
Proof. induction ps as [|p ps IH]; intros H; cbn; constructor; [apply H; left; reflexivity|apply IH; intros; apply H; right; assumption]. Qed.
Lemma pre_about (F : format) md s x y c : all_about x y c ->
  all_about (md_pre (fnum F) md s x) (md_pre Rnum (exact_model F md) s y) (md_pre (bnum F) (bound_model F md) s c).
Proof.
  intros H. unfold md_pre, lk. cbn [exact_model bound_model md_layer md_last exact_layer lkind]. destruct (lkind (fnum F) (md_layer (fnum F) md (hd 0%nat (order s)))); cbn [kind_on]; try exact H.
  destruct (md_last (fnum F) md); [|exact H]. apply aa_tab3. intros f i j. apply aa_at3. exact H.
Qed.
Lemma post_about (F : format) md s x y c : all_about x y c ->
  all_about (md_post (fnum F) md s x) (md_post Rnum (exact_model F md) s y) (md_post (bnum F) (bound_model F md) s c).
Proof.
  intros H. unfold md_post, lk. cbn [exact_model bound_model md_layer md_last exact_layer lkind].
  assert (E : forall N on k, out_channels N (kind_on F N on k) = out_channels (fnum F) k) by (intros N on k; destruct k; reflexivity). rewrite !E.
  destruct (out_channels _ _) as [((C & H') & W)|]; [|exact H]. destruct (md_last (fnum F) md); [|exact H]. apply aa_tab3. intros f i j. apply aa_at3. exact H.
Qed.
Section Network.
  Context (F : format) (ninf : float F) (q : Q -> float F) (ninfR : R) (md : model (fnum F)) (s : schedule).
  Hypothesis G : runnable (md_graph _ md) s.
  Hypothesis M : forall n, In n (dnn (md_graph _ md)) -> measured F (md_layer _ md n).
  Lemma values_about x y c v1 v2 v3 : all_about x y c ->
    evaluates (documented_net (fnum F) ninf q md s) x v1 -> evaluates (documented_net Rnum ninfR Q2R (exact_model F md) s) y v2 -> evaluates (bound_net F q md s) c v3 ->
    forall n, In n (dnn (md_graph _ md)) -> all_about (v1 n) (v2 n) (v3 n).
  Proof.
    intros A E1 E2 E3.
    assert (P : forall l1 l2, order s = l1 ++ l2 -> forall n, In n l1 -> all_about (v1 n) (v2 n) (v3 n)).
    { intros l1. induction l1 as [|a l1 IH] using rev_ind; intros l2 E n Hn; [destruct Hn|].
      apply in_app_or in Hn. destruct Hn as [Hn|[<-|[]]].
      - apply (IH (a :: l2)); [rewrite E, <- app_assoc; reflexivity|exact Hn].
      - assert (Ha : In a (dnn (md_graph _ md))) by (apply (in_order (documented_net (fnum F) ninf q md s) s G); rewrite E; apply in_or_app; left; apply in_or_app; right; left; reflexivity).
        rewrite (E1 a Ha), (E2 a Ha), (E3 a Ha). cbn [forward pre net_graph documented_net net_with bound_net bound_model exact_model md_graph md_layer].
        apply layer_about; [apply M; exact Ha|]. destruct (previous_layer (md_graph _ md) a) as [|p ps] eqn:Ep.
        + constructor; [apply pre_about; exact A|constructor].
        + apply ops_of. intros r Hr. apply (IH (a :: l2)); [rewrite E, <- app_assoc; reflexivity|].
          eapply (rn_topo _ s G l1 a l2); [rewrite E, <- app_assoc; reflexivity|]. rewrite Ep. exact Hr. }
    intros n Hn. apply (P (order s) []); [rewrite app_nil_r; reflexivity|]. apply (in_order (documented_net (fnum F) ninf q md s) s G). exact Hn.
  Qed.
End Network.

(** For every supported model, every floating-point format, every input and every
    bound known of it: the program stays within the propagated bounds of what the
    network computes in exact arithmetic. *)
Theorem C78_program : forall (F : format) (ninf : float F) (q : Q -> float F) (md : model (fnum F)) inp,
  supported (fnum F) md inp -> (forall n, In n (dnn (md_graph _ md)) -> measured F (md_layer _ md n)) ->
  exists s, tri_topo (md_graph _ md) = Some s /\
  forall (m : mem (float F)) input_bounds, declared (python_net (fnum F) ninf q md s) s m -> all_about (m NnIn) (map val (m NnIn)) input_bounds ->
  exists m' exact bounds,
    inference (python_net (fnum F) ninf q md s) s m = Some m' /\
    evaluates (documented_net Rnum 0 Q2R (exact_model F md) s) (map val (m NnIn)) exact /\
    evaluates (bound_net F q md s) input_bounds bounds /\
    all_about (m' NnOut) (md_post Rnum (exact_model F md) s (exact (last (order s) O))) (md_post (bnum F) (bound_model F md) s (bounds (last (order s) O))).
Proof.
  intros F ninf q md inp SP MS. destruct (C08_inference_computes_the_network (fnum F) ninf q md inp SP) as (s & HS & HI). exists s. split; [exact HS|].
  intros m xb D A. destruct (HI m D) as (v1 & m' & E1 & EI & EO & _). pose proof (supported_runnable (fnum F) md inp s SP HS) as G.
  destruct (evaluates_exists (documented_net Rnum 0 Q2R (exact_model F md) s) s (sp_linked _ _ _ SP) G (map val (m NnIn))) as (v2 & E2).
  destruct (evaluates_exists (bound_net F q md s) s (sp_linked _ _ _ SP) G xb) as (v3 & E3).
  exists m', v2, v3. split; [exact EI|]. split; [exact E2|]. split; [exact E3|]. rewrite EO. apply post_about.
  apply (values_about F ninf q 0 md s G MS (m NnIn) (map val (m NnIn)) xb v1 v2 v3 A E1 E2 E3).
  apply (in_order (documented_net (fnum F) ninf q md s) s G). exact (last_in (fnum F) ninf q md inp s SP HS).
Qed.
Print Assumptions C78_program.

(** The two convolution algorithms add the same products in the same order: their
    results are the same floating-point numbers, not only close. *)
Theorem C78_algorithms_agree : forall (F : format) out c w b act x,
  out <> Temp -> conv_dims (fnum F) c w b x -> dilation c = 1%Z ->
  exists y,
    layer_ok (conv6_c (fnum F) out out c w b act) [(out, x)] out (nf c * oh c * ow c) (nf c * oh c * ow c) y /\
    layer_ok (std_gemm_c (fnum F) NN None out c w b act) [(out, x)] out
      (Z.max (ic c * ih c * iw c) (nf c * oh c * ow c)) (Z.max (nf c * oh c * ow c) (patches_height c * patches_width c)) y.
Proof.
  intros F out c w b act x HT D DI. eexists. split.
  - apply (C14_six_loops (fnum F) (float_zero_product F)); assumption.
  - apply (C15_std_gemm_nn (fnum F) (float_zero_product F) (float_mul_comm F) None); try assumption. intros k E. discriminate E.
Qed.
Print Assumptions C78_algorithms_agree.
