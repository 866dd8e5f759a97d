From Coq Require Import ZArith List Lia Bool.
Import ListNotations.
Open Scope Z_scope.
From Verif Require Import CMem Tensor Num Conv.

(** ** Updating a segment of an array in a single loop *)
Section Row.
  Context {V : Type}.
  Lemma row_map n base (body : Z -> mem V -> option (mem V)) b m (old new : Z -> V) :
    0 <= n -> (forall j, 0 <= j < n -> rd m b (base + j) = Some (old j)) ->
    (forall j m', 0 <= j < n -> only m m' b -> rd m' b (base + j) = Some (old j) ->
        body j m' = wr m' b (base + j) (new j)) ->
    exists m', for_ n body m = Some m' /\ only m m' b /\
      (forall j, 0 <= j < n -> rd m' b (base + j) = Some (new j)) /\
      (forall q, (q < base \/ base + n <= q) -> rd m' b q = rd m b q).
  Proof.
    intros Hn Hold HB.
    destruct (for_inv (fun k m' => only m m' b /\
       (forall j, 0 <= j < k -> rd m' b (base + j) = Some (new j)) /\
       (forall q, (q < base \/ base + k <= q) -> rd m' b q = rd m b q)) n body m) as (m' & E & O & P1 & P2).
    - exact Hn.
    - split; [apply only_refl|]. split; intros; [lia|reflexivity].
    - intros k m1 Hk (O & P1 & P2).
      assert (R : rd m1 b (base + k) = Some (old k)) by (rewrite P2 by lia; apply Hold; lia).
      rewrite (HB k m1 Hk O R).
      destruct (wr_stores m1 b (base + k) (new k)) as (m2 & E2 & (O2 & R2 & S2)).
      { apply rdl_range in R. exact R. }
      exists m2. split; [exact E2|]. split.
      { destruct O as [L O], O2 as [L2 O2]. split; [lia|]. intros b' Hb'. rewrite O2, O; auto. }
      split.
      + intros j Hj. destruct (Z.eq_dec j k) as [->|Hjk]; [exact R2|]. rewrite S2 by lia. apply P1. lia.
      + intros q Hq. rewrite S2 by lia. apply P2. lia.
    - exists m'. auto.
  Qed.

  Lemma only_trans (m m1 m2 : mem V) b : only m m1 b -> only m1 m2 b -> only m m2 b.
  Proof. intros [L O] [L2 O2]. split; [lia|]. intros b' Hb. rewrite O2, O; auto. Qed.
End Row.

Section ConvProofs.
  Context (N : num).
  Notation V := (T N).
  Notation mem := (mem V).
  Notation z := (n0 N).

  Lemma inside_spec c ii jj : inside c ii jj = true <-> 0 <= ii < ih c /\ 0 <= jj < iw c.
  Proof.
    unfold inside. rewrite !andb_true_iff, !Z.geb_le, !Z.ltb_lt. lia.
  Qed.
  Lemma zero_padded_inside c (x : list V) p ii jj :
    zero_padded (ih c) (iw c) x p ii jj = if inside c ii jj then at3 z (ih c) (iw c) x p ii jj else z.
  Proof.
    unfold zero_padded, inside. rewrite !Z.geb_leb. destruct (0 <=? ii), (ii <? ih c), (0 <=? jj), (jj <? iw c); reflexivity.
  Qed.

  Lemma sum3_loop A B C (body : Z -> Z -> Z -> V -> option V) t :
    0 <= A -> 0 <= B -> 0 <= C ->
    (forall p h w s, 0 <= p < A -> 0 <= h < B -> 0 <= w < C -> body p h w s = Some (nadd N s (t p h w))) ->
    for_ A (fun p => for_ B (fun h => for_ C (body p h))) z = Some (nsum3 A B C t).
  Proof.
    intros HA HB HC Hb. rewrite for_nest3 by assumption. apply sum_loop. intros k s Hk.
    destruct (split3_range A B C k) as (_ & _ & _ & H1 & H2 & H3); auto.
  Qed.

  Lemma nsum3_ext A B C f g : 0 <= A -> 0 <= B -> 0 <= C ->
    (forall p h w, 0 <= p < A -> 0 <= h < B -> 0 <= w < C -> f p h w = g p h w) ->
    nsum3 (N := N) A B C f = nsum3 A B C g.
  Proof.
    intros HA HB HC H. apply nsum_ext. intros k Hk.
    destruct (split3_range A B C k) as (_ & _ & _ & H1 & H2 & H3); auto.
  Qed.

  Lemma zlen_convolution c w b act (x : list V) : conv_dims N c w b x ->
    zlen (convolution N c w b act x) = nf c * oh c * ow c.
  Proof. intros D. unfold convolution. rewrite zlen_map. apply zlen_tab3; apply D. Qed.

  Lemma weight_index c (w b x : list V) f p h w_ : conv_dims N c w b x ->
    0 <= f < nf c -> 0 <= p < ic c -> 0 <= h < kh c -> 0 <= w_ < kw c ->
    0 <= w_ + kw c * (h + kh c * (p + ic c * f)) < zlen w.
  Proof.
    intros D Hf Hp Hh Hw. rewrite (cd_w N c w b x D).
    assert (0 <= p + ic c * f < nf c * ic c) by nia.
    pose proof (idx3_range (nf c * ic c) (kh c) (kw c) (p + ic c * f) h w_). unfold idx3 in *. lia.
  Qed.

  Lemma conv6_ok (ZP : zero_product_law N) src out c w b act x :
    out <> Temp -> src <> Temp -> conv_dims N c w b x ->
    layer_ok (conv6_c N src out c w b act) [(src, x)] out (nf c * oh c * ow c) (nf c * oh c * ow c)
      (convolution N c w b act x).
  Proof.
    intros Ho Hs D. unfold conv6_c. rewrite <- (map_id (convolution _ _ _ _ _ _)).
    pose proof D as [D1 D2 D3 D4 D5 D6 D7 D8 D9 D10 D11].
    apply via_temp_ok; [exact Ho|apply zlen_convolution; exact D|].
    intros m Hm Ht. apply holds_src1 in Hm. unfold convolution. rewrite map_tab3.
    apply fill3; auto. intros f i j m' Hf Hi Hj O _ _.
    assert (Hm' : holds m' src x) by (eapply holds_eq; [apply O|]; assumption).
    rewrite (sum3_loop (ic c) (kh c) (kw c) _ (fun p h w_ =>
                nmul N (zero_padded (ih c) (iw c) x p (i * strides c + h * dilation c - pt c)
                                                      (j * strides c + w_ * dilation c - pl c))
                       (at3 (n0 N) (kh c) (kw c) w (p + ic c * f) h w_))); auto.
    2:{ intros p h w_ s Hp Hh Hw. cbv beta zeta.
        set (ii := i * strides c + h * dilation c - pt c). set (jj := j * strides c + w_ * dilation c - pl c).
        assert (E : (if inside c ii jj then
               x <- rd m' src (jj + iw c * (ii + ih c * p)) ;;
               y <- rdl w (w_ + kw c * (h + kh c * (p + ic c * f))) ;;
               Some (nadd N s (nmul N x y)) else Some s) =
               Some (nadd N s (nmul N (zero_padded (ih c) (iw c) x p ii jj) (at3 z (kh c) (kw c) w (p + ic c * f) h w_)))).
        { rewrite zero_padded_inside. destruct (inside c ii jj) eqn:EI.
          - apply inside_spec in EI. rewrite (rd_at3 z m' src x (ic c) (ih c) (iw c) p ii jj); auto; try lia.
            cbn [bind]. rewrite (rdl_nthZ z w) by (apply (weight_index c w b x); assumption). reflexivity.
          - rewrite ZP. reflexivity. }
        exact E. }
    cbn [bind]. rewrite (rdl_nthZ z b) by lia. reflexivity.
  Qed.

  (** Python reference. *)
  Lemma conv_py_ok (MC : mul_comm_law N) c w b act x : conv_dims N c w b x -> dilation c = 1 ->
    conv_py N c w b act x = convolution N c w b act x.
  Proof.
    intros [D1 D2 D3 D4 D5 D6 D7 D8 D9 D10 D11] Hd. unfold conv_py, convolution. f_equal. apply tab3_ext; auto.
    intros f i j Hf Hi Hj. f_equal. apply nsum3_ext; auto. intros p h w_ Hp Hh Hw.
    rewrite MC. f_equal. unfold py_padded, zero_padded. rewrite Hd, !Z.mul_1_r.
    replace (i * strides c + h >=? pt c) with (0 <=? i * strides c + h - pt c)
      by (rewrite Z.geb_leb; apply eq_true_iff_eq; rewrite !Z.leb_le; lia).
    replace (j * strides c + w_ >=? pl c) with (0 <=? j * strides c + w_ - pl c)
      by (rewrite Z.geb_leb; apply eq_true_iff_eq; rewrite !Z.leb_le; lia).
    replace (i * strides c + h <? pt c + ih c) with (i * strides c + h - pt c <? ih c)
      by (apply eq_true_iff_eq; rewrite !Z.ltb_lt; lia).
    replace (j * strides c + w_ <? pl c + iw c) with (j * strides c + w_ - pl c <? iw c)
      by (apply eq_true_iff_eq; rewrite !Z.ltb_lt; lia).
    reflexivity.
  Qed.

  (** ** im2col *)
  Definition patch (c : conv_params) (x : list V) (k q : Z) : V :=
    zero_padded (ih c) (iw c) x (k / (kh c * kw c))
      ((q / ow c) * strides c - pt c + (k / kw c) mod kh c)
      ((q mod ow c) * strides c - pl c + k mod kw c).

  Lemma im2col_ok src out c x (m : mem) : src <> out ->
    0 <= ic c -> 0 <= kh c -> 0 <= kw c -> 0 <= oh c -> 0 <= ow c -> zlen x = ic c * ih c * iw c ->
    holds m src x -> patches_height c * patches_width c <= zlen (m out) ->
    exists m', im2_c N (im2col_index c) src out c m = Some m' /\ only m m' out /\
      holds m' out (tab2 (patches_height c) (patches_width c) (patch c x)).
  Proof.
    intros Hne H1 H2 H3 H4 H5 Hx Hm HL. unfold im2_c.
    assert (HP : 0 <= patches_height c) by (unfold patches_height; nia).
    destruct (fill3 (patches_height c) (oh c) (ow c) (fun i h w_ m =>
      let i_offset := (i / kw c) mod kh c in
      let j_offset := i mod kw c in
      let c_offset := i / kh c / kw c in
      let ii := h * strides c - pt c + i_offset in
      let jj := w_ * strides c - pl c + j_offset in
      if inside c ii jj then
        v <- rd m src ((c_offset * ih c + ii) * iw c + jj) ;; wr m out (im2col_index c i h w_) v
      else wr m out (im2col_index c i h w_) z)
      (fun i h w_ => patch c x i (h * ow c + w_)) out m) as (m' & E & O & Hh); auto.
    - unfold patches_width in HL. lia.
    - intros i h w_ m' Hi Hh Hw O _ _. cbv zeta.
      assert (Hk : 0 < kh c /\ 0 < kw c /\ 0 < ic c) by (unfold patches_height in Hi; nia).
      replace (im2col_index c i h w_) with (idx3 (oh c) (ow c) i h w_)
        by (unfold idx3, im2col_index, patches_width; ring).
      unfold patch. rewrite Z.div_add_l by lia. rewrite (Z.div_small w_) by lia. rewrite Z.add_0_r.
      rewrite (Z.add_comm (h * ow c)), Z_mod_plus_full, (Z.mod_small w_) by lia.
      rewrite zero_padded_inside.
      set (ii := h * strides c - pt c + (i / kw c) mod kh c).
      set (jj := w_ * strides c - pl c + i mod kw c).
      destruct (inside c ii jj) eqn:EI; [|reflexivity]. apply inside_spec in EI.
      rewrite Z.div_div by lia.
      rewrite (rd_at3 z m' src x (ic c) (ih c) (iw c) (i / (kh c * kw c)) ii jj); auto; try lia.
      + eapply holds_eq; [apply O|]; assumption.
      + split; [apply Z.div_pos; nia|]. apply Z.div_lt_upper_bound; [nia|]. unfold patches_height in Hi. nia.
      + unfold idx3. ring.
    - exists m'. split; [exact E|]. split; [exact O|].
      replace (tab2 (patches_height c) (patches_width c) (patch c x)) with
        (tab3 (patches_height c) (oh c) (ow c) (fun i h w_ => patch c x i (h * ow c + w_))); [exact Hh|].
      unfold tab3, tab2, patches_width. rewrite Z.mul_assoc. apply tab_ext. intros k Hk.
      destruct (split3_range (patches_height c) (oh c) (ow c) k) as (P1 & P2 & P3 & P4 & P5 & P6); auto.
      f_equal. rewrite <- (idx3_join (oh c) (ow c) k) at 3 by lia. unfold idx3.
      rewrite <- (Z.mod_small ((k / ow c) mod oh c * ow c + k mod ow c) (oh c * ow c)) by nia.
      rewrite <- (Z_mod_plus_full _ (k / (oh c * ow c)) (oh c * ow c)). f_equal. ring.
  Qed.

  (** ** gemm_nn *)
  Lemma gemm_nn_ok rdB m_ n k w b act (bm : list V) (m : mem) :
    0 <= m_ -> 0 <= n -> 0 <= k -> zlen w = m_ * k -> zlen b = m_ -> zlen bm = k * n ->
    (forall m' q, only m m' Temp -> 0 <= q < k * n -> rdB m' q = Some (nthZ z bm q)) ->
    (forall q, 0 <= q < m_ * n -> rd m Temp q = Some z) ->
    exists m', gemm_nn_c N rdB m_ n k w b act m = Some m' /\ only m m' Temp /\
      holds m' Temp (tab2 m_ n (fun i j =>
        act (nadd N (nsum N k (fun p => nmul N (at2 z k w i p) (at2 z n bm p j))) (nthZ z b i)))).
  Proof.
    intros Hm Hn Hk Hw Hb Hbm HBm HZ. unfold gemm_nn_c.
    set (val := fun i j => act (nadd N (nsum N k (fun p => nmul N (at2 z k w i p) (at2 z n bm p j))) (nthZ z b i))).
    match goal with |- context [for_ m_ ?body m] => set (bod := body) end.
    destruct (for_inv (fun i m' => only m m' Temp /\
        (forall r j, 0 <= r < i -> 0 <= j < n -> rd m' Temp (r * n + j) = Some (val r j)) /\
        (forall q, i * n <= q -> rd m' Temp q = rd m Temp q)) m_ bod m) as (m' & E & O & P1 & P2).
    - exact Hm.
    - split; [apply only_refl|]. split; intros; [lia|reflexivity].
    - intros i m0 Hi (O & P1 & P2). unfold bod.
      assert (Zi : forall j, 0 <= j < n -> rd m0 Temp (i * n + j) = Some z).
      { intros j Hj. rewrite P2 by lia. apply HZ. nia. }
      (* the p loop *)
      match goal with |- context [for_ k ?body m0] => set (pb := body) end.
      destruct (for_inv (fun p m' => only m0 m' Temp /\
          (forall j, 0 <= j < n -> rd m' Temp (i * n + j) = Some (nsum N p (fun p => nmul N (at2 z k w i p) (at2 z n bm p j)))) /\
          (forall q, (q < i * n \/ i * n + n <= q) -> rd m' Temp q = rd m0 Temp q)) k pb m0) as (m1 & E1 & O1 & Q1 & Q2).
      + exact Hk.
      + split; [apply only_refl|]. split; [|reflexivity]. intros j Hj. rewrite nsum_0 by lia. apply Zi. exact Hj.
      + intros p m1 Hp (O1 & Q1 & Q2). unfold pb. rewrite (rdl_nthZ z w) by nia. cbn [bind].
        destruct (row_map n (i * n) (fun j m =>
                t <- rd m Temp (i * n + j) ;; x <- rdB m (p * n + j) ;;
                wr m Temp (i * n + j) (nadd N t (nmul N (nthZ z w (i * k + p)) x))) Temp m1
           (fun j => nsum N p (fun p => nmul N (at2 z k w i p) (at2 z n bm p j)))
           (fun j => nsum N (p + 1) (fun p => nmul N (at2 z k w i p) (at2 z n bm p j)))) as (m2 & E2 & O2 & R1 & R2); auto.
        * intros j m3 Hj O3 R3. rewrite R3. cbn [bind].
          rewrite HBm by (try (eapply only_trans; [exact O|]; eapply only_trans; eassumption); nia).
          cbn [bind]. f_equal. rewrite nsum_succ by lia. f_equal. f_equal; unfold at2; f_equal; ring.
        * exists m2. split; [exact E2|]. split; [eapply only_trans; eassumption|]. split; [exact R1|].
          intros q Hq. rewrite R2, Q2; auto.
      + rewrite E1. cbn [bind].
        destruct (row_map n (i * n) (fun j m =>
            o <- rd m Temp (i * n + j) ;; bi <- rdl b i ;;
            wr m Temp (i * n + j) (act (nadd N o bi))) Temp m1
           (fun j => nsum N k (fun p => nmul N (at2 z k w i p) (at2 z n bm p j)))
           (fun j => val i j)) as (m2 & E2 & O2 & R1 & R2); auto.
        * intros j m3 Hj O3 R3. rewrite R3. cbn [bind]. rewrite (rdl_nthZ z b) by lia. reflexivity.
        * exists m2. split; [exact E2|]. split; [eapply only_trans; [exact O|]; eapply only_trans; eassumption|].
          split.
          -- intros r j Hr Hj. destruct (Z.eq_dec r i) as [->|Hri]; [apply R1; exact Hj|].
             rewrite R2, Q2 by nia. apply P1; lia.
          -- intros q Hq. rewrite R2, Q2 by nia. apply P2. nia.
    - exists m'. split; [exact E|]. split; [exact O|]. apply holds_intro.
      + unfold tab2. rewrite zlen_tab by nia. rewrite (only_zlen m m' Temp Temp O).
        destruct (Z.eq_dec (m_ * n) 0) as [E0|E0]; [rewrite E0; apply zlen_nonneg|].
        assert (R : rd m Temp (m_ * n - 1) = Some z) by (apply HZ; nia). apply rdl_range in R. lia.
      + intros q Hq. unfold tab2 in *. rewrite zlen_tab in Hq by nia. rewrite rdl_tab by lia.
        destruct (tab2_range m_ n q) as (_ & Hn' & Q3 & Q4); auto.
        replace q with (q / n * n + q mod n) at 1 by (pose proof (Z.div_mod q n ltac:(lia)); lia).
        rewrite P1 by assumption. reflexivity.
  Qed.

  (** The product of the weight matrix with the patch matrix is the convolution. *)
  Lemma gemm_patches (MC : mul_comm_law N) c w b act x : conv_dims N c w b x -> dilation c = 1 ->
    tab2 (nf c) (patches_width c) (fun i j =>
        act (nadd N (nsum N (patches_height c) (fun p => nmul N (at2 z (patches_height c) w i p)
               (at2 z (patches_width c) (tab2 (patches_height c) (patches_width c) (patch c x)) p j))) (nthZ z b i)))
    = convolution N c w b act x.
  Proof.
    intros D Hd. pose proof D as [D1 D2 D3 D4 D5 D6 D7 D8 D9 D10 D11].
    assert (ESz : nf c * patches_width c = nf c * oh c * ow c) by (unfold patches_width; ring).
      unfold convolution. rewrite map_tab3. unfold tab2 at 1. unfold tab3. rewrite ESz. apply tab_ext. intros q Hq.
      destruct (split3_range (nf c) (oh c) (ow c) q) as (P1 & P2 & P3 & P4 & P5 & P6); auto.
      assert (Ef : q / patches_width c = q / (oh c * ow c)) by reflexivity. rewrite Ef.
      f_equal. f_equal. unfold nsum3, patches_height. apply nsum_ext. intros k Hk.
      destruct (split3_range (ic c) (kh c) (kw c) k) as (K1 & K2 & K3 & K4 & K5 & K6); auto.
      rewrite MC. f_equal.
      + rewrite at2_tab2.
        * unfold patch, patches_width. rewrite Hd. 
          assert (Eq : (q mod (oh c * ow c)) / ow c = (q / ow c) mod oh c).
          { rewrite (Z.mul_comm (oh c)), Z.rem_mul_r by lia. rewrite (Z.mul_comm (ow c)), Z.div_add by lia.
            rewrite (Z.div_small (q mod ow c)) by (apply Z.mod_pos_bound; lia). lia. }
          assert (Em : (q mod (oh c * ow c)) mod ow c = q mod ow c).
          { rewrite (Z.mul_comm (oh c)), Z.rem_mul_r by lia. rewrite (Z.mul_comm (ow c)), Z_mod_plus_full.
            apply Z.mod_mod. lia. }
          rewrite Eq, Em. f_equal; ring.
        * unfold patches_height. lia.
        * unfold patches_width. apply Z.mod_pos_bound. nia.
      + unfold at2, at3. f_equal. unfold idx3. fold (patches_height c).
        pose proof (idx3_join (kh c) (kw c) k ltac:(lia) ltac:(lia) ltac:(lia)) as J. unfold idx3 in J.
        set (f := q / (oh c * ow c)) in *. unfold patches_height.
        set (k1 := k / (kh c * kw c)) in *. set (k2 := (k / kw c) mod kh c) in *. set (k3 := k mod kw c) in *. nia.
  Qed.

  Lemma copy_to_temp (b : bname) n (m : mem) x : b <> Temp -> holds m b x -> zlen x = n -> n <= zlen (m Temp) ->
    exists m', for_ n (fun k m => v <- rd m b k ;; wr m Temp k v) m = Some m' /\ only m m' Temp /\ holds m' Temp x.
  Proof.
    intros Hb Hm Hx HL. pose proof (zlen_nonneg x).
    destruct (fill_holds n (fun k m => v <- rd m b k ;; wr m Temp k v) (fun k => nthZ z x k) Temp m) as (m' & E & O & Hh); auto; [lia| |].
    - intros k m' Hk O _ _. rewrite (holds_rd_nthZ z m' b x); [reflexivity| |lia].
      eapply holds_eq; [apply O|]; assumption.
    - exists m'. split; [exact E|]. split; [exact O|]. rewrite (tab_nthZ z x), Hx. exact Hh.
  Qed.

  (** The whole std_gemm_nn layer. *)
  Lemma std_gemm_nn_ok (ZP : zero_product_law N) (MC : mul_comm_law N) pred_cst out c w b act x :
    out <> Temp -> (forall k, pred_cst = Some k -> out <> Cst k) -> conv_dims N c w b x -> dilation c = 1 ->
    let src := match pred_cst with Some k => Cst k | None => out end in
    layer_ok (std_gemm_c N NN pred_cst out c w b act) [(src, x)] out
      (Z.max (ic c * ih c * iw c) (nf c * oh c * ow c))
      (Z.max (nf c * oh c * ow c) (patches_height c * patches_width c))
      (convolution N c w b act x).
  Proof.
    intros Ho Hcst D Hd src m Hm Ht HL. apply holds_src1 in Hm.
    pose proof D as [D1 D2 D3 D4 D5 D6 D7 D8 D9 D10 D11].
    unfold std_gemm_c.
    set (psrc := match pred_cst with Some k => Cst k | None => Temp end).
    (* first copy *)
    assert (S1 : exists m1, match pred_cst with
          | Some _ => Some m
          | None => for_ (ic c * ih c * iw c) (fun k m => v <- rd m out k ;; wr m Temp k v) m
          end = Some m1 /\ only m m1 Temp /\ holds m1 psrc x).
    { unfold psrc, src in *. destruct pred_cst as [k|].
      - exists m. split; [reflexivity|]. split; [apply only_refl|exact Hm].
      - apply copy_to_temp; auto; lia. }
    destruct S1 as (m1 & E1 & O1 & H1). rewrite E1. cbn [bind].
    assert (HPW : 0 <= patches_width c) by (unfold patches_width; nia).
    assert (HPH : 0 <= patches_height c) by (unfold patches_height; nia).
    destruct (im2col_ok psrc out c x m1) as (m2 & E2 & O2 & H2); auto.
    { unfold psrc. destruct pred_cst as [k|]; [|congruence]. specialize (Hcst k eq_refl). congruence. }
    { rewrite (only_zlen m m1 Temp out O1). lia. }
    rewrite E2. cbn [bind].
    assert (ESz : nf c * patches_width c = nf c * oh c * ow c) by (unfold patches_width; ring).
    assert (HT2 : zlen (m2 Temp) = zlen (m Temp)).
    { rewrite (only_zlen m1 m2 out Temp O2), (only_zlen m m1 Temp Temp O1). reflexivity. }
    destruct (fill_spec (nf c * patches_width c) (fun k m => wr m Temp k z) (fun _ => z) Temp m2) as (m3 & E3 & O3 & Z3 & _).
    { nia. } { rewrite ESz, HT2. lia. } { intros; reflexivity. }
    rewrite E3. cbn [bind].
    set (bm := tab2 (patches_height c) (patches_width c) (patch c x)) in *.
    destruct (gemm_nn_ok (fun m => rd m out) (nf c) (patches_width c) (patches_height c) w b act bm m3) as (m4 & E4 & O4 & H4); auto.
    { rewrite D10. unfold patches_height. ring. }
    { unfold bm, tab2. apply zlen_tab. nia. }
    { intros m' q O' Hq. apply holds_rd_nthZ; [|unfold bm, tab2; rewrite zlen_tab by nia; lia].
      eapply holds_eq; [|exact H2]. destruct O' as [_ O'], O3 as [_ O3]. rewrite O', O3; auto. }
    rewrite E4. cbn [bind].
    match type of H4 with holds _ _ ?l => set (l4 := l) in * end.
    assert (L4 : zlen l4 = nf c * oh c * ow c) by (unfold l4, tab2; rewrite zlen_tab by nia; exact ESz).
    assert (HO4 : zlen (m4 out) = zlen (m out)).
    { rewrite (only_zlen m3 m4 Temp out O4), (only_zlen m2 m3 Temp out O3), (only_zlen m1 m2 out out O2), (only_zlen m m1 Temp out O1).
      reflexivity. }
    destruct (copy_from_temp_spec (nf c * oh c * ow c) (fun v => v) out m4 l4) as (m5 & E5 & O5 & H5); auto.
    { nia. } { rewrite HO4. lia. }
    exists m5. split; [exact E5|]. split; [|split].
    - rewrite map_id in H5. replace (convolution N c w b act x) with l4; [exact H5|].
      apply gemm_patches; assumption.
    - intros bb. rewrite (only_zlen m4 m5 out bb O5), (only_zlen m3 m4 Temp bb O4), (only_zlen m2 m3 Temp bb O3),
        (only_zlen m1 m2 out bb O2), (only_zlen m m1 Temp bb O1). reflexivity.
    - intros bb Hb1 Hb2. destruct O5 as [_ O5], O4 as [_ O4], O3 as [_ O3], O2 as [_ O2], O1 as [_ O1].
      rewrite O5, O4, O3, O2, O1; auto.
  Qed.
End ConvProofs.
