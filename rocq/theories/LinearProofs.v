(** * Proofs about Dense, MatMul, Gemm and batch normalisation. *)
From Coq Require Import ZArith List Lia Bool.
Import ListNotations.
Open Scope Z_scope.
From Verif Require Import CMem Tensor Num Linear.

Section LinearProofs.
  Context (N : num).
  Notation V := (T N).
  Notation mem := (mem V).
  Notation z := (n0 N).

  Lemma fill2 H W (body : Z -> Z -> mem -> option mem) (val : Z -> Z -> V) b (m : mem) :
    0 <= H -> 0 <= W -> H * W <= zlen (m b) ->
    (forall i j m', 0 <= i < H -> 0 <= j < W -> only m m' b -> body i j m' = wr m' b (i * W + j) (val i j)) ->
    exists m', for_ H (fun i => for_ W (body i)) m = Some m' /\ only m m' b /\ holds m' b (tab2 H W val).
  Proof.
    intros HH HW HL HB. rewrite for_nest by assumption.
    apply fill_holds; [nia|exact HL|]. intros k m' Hk O _ _.
    destruct (tab2_range H W k) as (P1 & P2 & P3 & P4); auto.
    rewrite HB by assumption. f_equal. rewrite (Z.mul_comm _ W). symmetry. apply Z.div_mod. lia.
  Qed.

  Lemma dense_ok src out prev_size size w b act x :
    out <> Temp -> src <> Temp -> 0 <= prev_size -> 0 <= size ->
    zlen x = prev_size -> zlen w = prev_size * size -> zlen b = size ->
    layer_ok (dense_c N src out prev_size size w b act) [(src, x)] out size size
      (dense_py N prev_size size w b act x).
  Proof.
    intros Ho Hsrc Hp Hs Hx Hw Hb. unfold dense_c.
    rewrite <- (map_id (dense_py _ _ _ _ _ _ _)).
    apply via_temp_ok; [exact Ho|unfold dense_py; apply zlen_tab; exact Hs|].
    intros m Hm Ht. apply holds_src1 in Hm. unfold dense_py.
    apply fill_holds; [exact Hs|exact Ht|]. intros k m' Hk O _ _.
    erewrite sum_loop.
    2:{ intros j s Hj. rewrite (holds_rd_nthZ z m' src x j); [|eapply holds_eq; [apply O|]; assumption|lia].
        cbn [bind]. rewrite (rdl_nthZ z w) by nia. cbn [bind].
        replace (nthZ z w (j * size + k)) with (at2 z size w j k) by (unfold at2; f_equal; ring). reflexivity. }
    cbn [bind]. rewrite (rdl_nthZ z b) by lia. reflexivity.
  Qed.

  Lemma for_acc n (body : Z -> mem -> option mem) (t : Z -> V) (m : mem) b p v0 :
    0 <= n -> rd m b p = Some v0 -> 
    (forall k m' s, 0 <= k < n -> only m m' b -> (forall q, q <> p -> rd m' b q = rd m b q) -> rd m' b p = Some s ->
        body k m' = wr m' b p (nadd N s (t k))) ->
    exists m', for_ n body m = Some m' /\ stores m m' b p (iterZ n (fun k s => nadd N s (t k)) v0).
  Proof.
    intros Hn H0 HB.
    apply (for_inv (fun k m' => stores m m' b p (iterZ k (fun k s => nadd N s (t k)) v0))); [exact Hn| |].
    - rewrite iterZ_0 by lia. split; [apply only_refl|]. split; [exact H0|reflexivity].
    - intros k m1 Hk S. pose proof S as (O & R & Q). rewrite (HB k m1 _ Hk O Q R).
      destruct (wr_stores m1 b p (nadd N (iterZ k (fun k s => nadd N s (t k)) v0) (t k))) as (m2 & E2 & S2).
      { apply rdl_range in R. exact R. }
      exists m2. split; [exact E2|]. rewrite iterZ_succ by lia. eapply stores_trans; eassumption.
  Qed.

  Lemma matmul_ok left right out C OH OW K act x y :
    out <> Temp -> left <> Temp -> right <> Temp -> 0 <= C -> 0 <= OH -> 0 <= OW -> 0 <= K ->
    zlen x = C * OH * K -> zlen y = C * K * OW ->
    layer_ok (matmul_c N left right out C OH OW K act) [(left, x); (right, y)] out (C * OH * OW) (C * OH * OW)
      (matmul_py N C C OH OW K act x y).
  Proof.
    intros Ho Hl Hr HC HH HW HK Hx Hy. unfold matmul_c, matmul_py.
    apply via_temp_ok; [exact Ho|apply zlen_tab3; assumption|].
    intros m Hm Ht. inversion Hm as [|? ? H1 Hm1]; subst. inversion Hm1 as [|? ? H2 _]; subst. cbn [fst snd] in *.
    apply fill3_stores; auto. intros f i j m1 Hf Hi Hj O.
    fold (idx3 OH OW f i j).
    destruct (wr_stores m1 Temp (idx3 OH OW f i j) z) as (m2 & E2 & S2).
    { pose proof (idx3_range C OH OW f i j Hf Hi Hj). rewrite (only_zlen m m1 Temp Temp O). lia. }
    rewrite E2. cbn [bind]. pose proof S2 as (O2 & R2 & _).
    destruct (for_acc K (fun k m =>
           t <- rd m Temp (idx3 OH OW f i j) ;;
           x <- rd m left (k + K * (i + OH * f)) ;;
           y <- rd m right (j + OW * (k + K * f)) ;;
           wr m Temp (idx3 OH OW f i j) (nadd N t (nmul N x y)))
           (fun k => nmul N (at3 z OH K x f i k) (at3 z K OW y (if C =? 1 then 0 else f) k j)) m2 Temp (idx3 OH OW f i j) z HK R2) as (m3 & E3 & S3).
    2:{ exists m3. split; [exact E3|]. eapply stores_trans; [exact S2|]. exact S3. }
    intros k m' s Hk O' _ Rs. rewrite Rs. cbn [bind].
    rewrite (rd_at3 z m' left x C OH K f i k); auto.
    2:{ eapply holds_eq; [|exact H1]. destruct O' as [_ Q1], O2 as [_ Q2], O as [_ Q3]. rewrite Q1, Q2, Q3; auto. }
    cbn [bind]. rewrite (rd_at3 z m' right y C K OW f k j); auto.
    2:{ eapply holds_eq; [|exact H2]. destruct O' as [_ Q1], O2 as [_ Q2], O as [_ Q3]. rewrite Q1, Q2, Q3; auto. }
    cbn [bind]. f_equal. f_equal. f_equal. f_equal.
    destruct (Z.eqb_spec C 1); [|reflexivity]. f_equal. lia.
  Qed.

  (** Gemm.  Left operand stored with shape (ih, iw). *)
  Lemma gemm_ok src out tA tB alpha beta m_ n k w b act x (L : alpha = None \/ ring_laws N) :
    out <> Temp -> src <> Temp -> 0 <= m_ -> 0 <= n -> 0 <= k ->
    zlen x = m_ * k -> zlen w = k * n -> zlen b = n ->
    layer_ok (gemm_c N src out tA tB alpha beta m_ n k w b act) [(src, x)] out (m_ * n) (m_ * n)
      (gemm_py N tA tB alpha beta (if tA then k else m_) (if tA then m_ else k)
         (if tB then n else k) (if tB then k else n) w b act x).
  Proof.
    intros Ho Hsrc Hm_ Hn Hk Hx Hw Hb. unfold gemm_c.
    rewrite <- (map_id (gemm_py _ _ _ _ _ _ _ _ _ _ _ _ _)).
    apply via_temp_ok; [exact Ho| |].
    { unfold gemm_py, tab2. destruct tA, tB; apply zlen_tab; nia. }
    intros m Hm Ht. apply holds_src1 in Hm.
    destruct (fill_holds (n * m_) (fun q mm => wr mm Temp q z) (fun _ => z) Temp m) as (m0 & E0 & O0 & _);
      [nia|nia|intros; reflexivity|].
    rewrite E0. cbn [bind].
    assert (Hm0 : holds m0 src x) by (eapply holds_eq; [apply O0|]; assumption).
    set (A := fun i p => if tA then at2 z m_ x p i else at2 z k x i p).
    set (B := fun p j => if tB then at2 z k w j p else at2 z n w p j).
    assert (G : gemm_py N tA tB alpha beta (if tA then k else m_) (if tA then m_ else k)
         (if tB then n else k) (if tB then k else n) w b act x =
         tab2 m_ n (fun i j => act (nadd N (scaled alpha (nsum N k (fun p => nmul N (A i p) (B p j)))) (scaled beta (nthZ z b j))))).
    { unfold gemm_py, A, B. destruct tA, tB; reflexivity. }
    rewrite G. clear G.
    assert (Ht0 : m_ * n <= zlen (m0 Temp)) by (rewrite (only_zlen m m0 Temp Temp O0); exact Ht).
    edestruct (fill2 m_ n (fun i j mm =>
          output <- for_ k (fun p output =>
             x <- rd mm src (gemm_addrA tA m_ k i p) ;; y <- rdl w (gemm_addrB tB n k p j) ;;
             Some (nadd N output (nmul N (scaled alpha x) y))) z ;;
          bj <- rdl b j ;;
          wr mm Temp (i * n + j) (act (nadd N output (scaled beta bj))))
       (fun i j => act (nadd N (scaled alpha (nsum N k (fun p => nmul N (A i p) (B p j)))) (scaled beta (nthZ z b j))))
       Temp m0) as (m1 & E1 & O1 & H1); auto.
    2:{ exists m1. split; [exact E1|]. split; [|exact H1]. split; [destruct O1, O0; lia|].
        intros b' Hb'. destruct O1 as [_ Q1], O0 as [_ Q2]. rewrite Q1, Q2; auto. }
    intros i j m' Hi Hj O.
    rewrite (sum_loop N k _ (fun p => nmul N (scaled alpha (A i p)) (B p j))).
    2:{ intros p s Hp. rewrite (holds_rd_nthZ z m' src x).
        2:{ eapply holds_eq; [apply O|]; assumption. }
        2:{ unfold gemm_addrA. destruct tA; nia. }
        cbn [bind]. rewrite (rdl_nthZ z w) by (unfold gemm_addrB; destruct tB; nia). cbn [bind].
        f_equal. f_equal. f_equal; [f_equal|].
        - unfold A, gemm_addrA, at2. destruct tA; f_equal; ring.
        - unfold B, gemm_addrB, at2. destruct tB; f_equal; ring. }
    cbn [bind]. rewrite (rdl_nthZ z b) by lia. cbn [bind]. f_equal. f_equal. f_equal.
    destruct alpha as [al|]; [|reflexivity]. destruct L as [L|L]; [discriminate L|]. cbn [scaled]. rewrite (nsum_mul_l N L).
    apply nsum_ext. intros p _. symmetry. apply (mul_assoc N L).
  Qed.

  (** Batch normalisation works in place: the output array may be the input array. *)
  Lemma bn_bn_py (F : field_laws N) s mu va bi eps x : bn N s mu va bi eps x = bn_py N s mu va bi eps x.
  Proof.
    unfold bn, bn_py. f_equal. rewrite (div_mul N F). apply (mul_comm N (fl_ring N F)).
  Qed.

  Lemma batchnorm_c_ok src out C chsz scale mean var bias eps act x :
    0 <= C -> 0 <= chsz -> zlen x = C * chsz ->
    zlen scale = C -> zlen mean = C -> zlen var = C -> zlen bias = C ->
    layer_ok (batchnorm_c N src out C chsz scale mean var bias eps act) [(src, x)] out 0 (C * chsz)
      (map act (tab2 C chsz (fun f k =>
         bn N (nthZ z scale f) (nthZ z mean f) (nthZ z var f) (nthZ z bias f) eps (at2 z chsz x f k)))).
  Proof.
    intros HC Hch Hx Hs Hme Hv Hbi m Hm _ Ho. apply holds_src1 in Hm. unfold batchnorm_c.
    rewrite (for_nest C chsz) by assumption. unfold tab2. rewrite map_tab.
    edestruct (fill_stores_aux (fun m : mem => m) (fun _ _ => True) (C * chsz)) as (m' & E & O & Hh & _);
      [nia|exact Ho|exact I| |].
    2:{ exists m'. split; [exact E|]. split; [exact Hh|]. split; [intros b; apply (only_zlen m m' out b O)|].
        intros b _ Hb. apply O. exact Hb. }
    intros k m1 Hk O _ P1 P2. destruct (tab2_range C chsz k) as (Q1 & Q2 & Q3 & Q4); auto.
    assert (Ek : k mod chsz + chsz * (k / chsz) = k) by (rewrite Z.add_comm; symmetry; apply Z.div_mod; lia).
    rewrite (rdl_nthZ z scale), (rdl_nthZ z mean), (rdl_nthZ z var), (rdl_nthZ z bias) by lia. cbn [bind].
    rewrite Ek.
    assert (R : rd m1 src k = Some (nthZ z x k)).
    { destruct (bname_eq_dec src out) as [->|Hne].
      - rewrite P2 by lia. apply holds_rd_nthZ; [exact Hm|lia].
      - unfold rd. destruct O as [_ O]. rewrite O by exact Hne. apply holds_rd_nthZ; [exact Hm|lia]. }
    rewrite R. cbn [bind].
    set (v := bn N _ _ _ _ _ _).
    destruct (wr_stores m1 out k v) as (m2 & E2 & S2). { rewrite (only_zlen m m1 out out O). lia. }
    rewrite E2. cbn [bind]. pose proof S2 as (O2 & R2 & _). rewrite R2. cbn [bind].
    destruct (wr_stores m2 out k (act v)) as (m3 & E3 & S3).
    { rewrite (only_zlen m1 m2 out out O2), (only_zlen m m1 out out O). lia. }
    exists m3. split; [exact E3|]. split; [|exact I].
    pose proof (stores_trans m1 m2 m3 out k v (act v) S2 S3) as S4.
    replace (at2 z chsz x (k / chsz) (k mod chsz)) with (nthZ z x k) by (unfold at2; rewrite Ek; reflexivity).
    exact S4.
  Qed.
End LinearProofs.
