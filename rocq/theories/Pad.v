(** * Pad layers. *)
From Coq Require Import ZArith List Lia Bool.
Import ListNotations.
Open Scope Z_scope.
From Verif Require Import CMem Tensor.

(** padding/Pad.py:20-105: [pads] has eight entries; entries 1,2,3 are the cells
    added before and 5,6,7 the cells added after the data along channels, rows
    and columns (entries 0 and 4 are never used). *)
Record pads := mkPads { pd_front : Z; pd_top : Z; pd_left : Z; pd_back : Z; pd_bottom : Z; pd_right : Z }.

Section Pad.
  Context {V : Type}.
  Notation mem := (@mem V).
  Definition pad_OC (C : Z) (P : pads) := C + pd_front P + pd_back P.
  Definition pad_OH (H : Z) (P : pads) := H + pd_top P + pd_bottom P.
  Definition pad_OW (W : Z) (P : pads) := W + pd_left P + pd_right P.

  (** templates/layers/Pad/template_Constant_Pad.c.tpl with the substitutions
      of constant_pad/ConstantPadDefault.py:44-68. *)
  Definition constant_pad_c (src out : bname) (C H W : Z) (P : pads) (value : V) (act : V -> V) : mem -> option mem :=
    let OC := pad_OC C P in let OH := pad_OH H P in let OW := pad_OW W P in
    via_temp (for_ OC (fun f => for_ OH (fun i => for_ OW (fun j m =>
        m1 <- (if (pd_front P <=? f) && (f <? OC - pd_back P) && (pd_top P <=? i) && (i <? OH - pd_bottom P)
                  && (pd_left P <=? j) && (j <? OW - pd_right P)
               then v <- rd m src ((j - pd_left P) + W * ((i - pd_top P) + H * (f - pd_front P))) ;;
                    wr m Temp (j + OW * (i + OH * f)) v
               else wr m Temp (j + OW * (i + OH * f)) value) ;;
        u <- rd m1 Temp (j + OW * (i + OH * f)) ;;
        wr m1 Temp (j + OW * (i + OH * f)) (act u)))))
      (OC * OH * OW) (fun v => v) out.

  (** The C operator %: truncated remainder, undefined for a null divisor. *)
  Definition crem (a b : Z) : option Z := if b =? 0 then None else Some (Z.rem a b).

  (** One axis of the three [change_indice] texts; [p] is the padding before
      the data, [n] the input size along the axis, [k] the output coordinate.
      template_Edge_Pad.c.tpl, EdgePadDefault.py:41-51. *)
  Definition edge_index (p n k : Z) : option Z :=
    let k0 := k - p in
    let k1 := if k <? p then 0 else k0 in
    Some (if n + p <=? k then n - 1 else k1).
  (** template_Wrap_Pad.c.tpl, WrapPadDefault.py:43-53. *)
  Definition wrap_index (p n k : Z) : option Z :=
    let k0 := k - p in
    k1 <- (if n + p <=? k then crem k0 n else Some k0) ;;
    (if k <? p then r <- crem k1 n ;; Some (r + n) else Some k1).
  (** template_Reflect_Pad.c.tpl, ReflectPadDefault.py:42-49. *)
  Definition reflect_index (p n k : Z) : option Z :=
    let M := n - 1 in
    k0 <- crem (p - k) (2 * M) ;;
    let k1 := if k0 <? 0 then 2 * M + k0 else k0 in
    Some (if M <? k1 then 2 * M - k1 else k1).

  (** templates/layers/Pad/template_Pad_Non_Constant.c.tpl.  The mustache
      variable "linear" is never set and "activation_function" is a non-empty
      text, so both sections are rendered: the activation is applied twice. *)
  Definition nonconstant_pad_c (index : Z -> Z -> Z -> option Z)
      (src out : bname) (C H W : Z) (P : pads) (act : V -> V) : mem -> option mem :=
    let OC := pad_OC C P in let OH := pad_OH H P in let OW := pad_OW W P in
    via_temp (for_ OC (fun f => for_ OH (fun i => for_ OW (fun j m =>
        new_f <- index (pd_front P) C f ;;
        new_i <- index (pd_top P) H i ;;
        new_j <- index (pd_left P) W j ;;
        v <- rd m src (new_j + W * (new_i + H * new_f)) ;;
        m0 <- wr m Temp (j + OW * (i + OH * f)) v ;;
        u <- rd m0 Temp (j + OW * (i + OH * f)) ;;
        m1 <- wr m0 Temp (j + OW * (i + OH * f)) (act u) ;;
        w <- rd m1 Temp (j + OW * (i + OH * f)) ;;
        wr m1 Temp (j + OW * (i + OH * f)) (act w)))))
      (OC * OH * OW) (fun v => v) out.
  Definition edge_pad_c := nonconstant_pad_c edge_index.
  Definition wrap_pad_c := nonconstant_pad_c wrap_index.
  Definition reflect_pad_c := nonconstant_pad_c reflect_index.
End Pad.
Arguments constant_pad_c {V}. Arguments edge_pad_c {V}. Arguments wrap_pad_c {V}. Arguments reflect_pad_c {V}.
Arguments nonconstant_pad_c {V}.

(** ** Proofs *)
Section PadProofs.
  Context {V : Type} (d : V).
  Definition pads_ok (C H W : Z) (P : pads) : Prop :=
    0 < C /\ 0 < H /\ 0 < W /\ 0 <= pd_front P /\ 0 <= pd_top P /\ 0 <= pd_left P /\
    0 <= pd_back P /\ 0 <= pd_bottom P /\ 0 <= pd_right P.

  Lemma rd_stored (m m' : mem V) b k v : stores m m' b k v -> rd m' b k = Some v.
  Proof. intros (_ & R & _). exact R. Qed.
  Lemma stored_zlen (m m' : mem V) b k v b' : stores m m' b k v -> zlen (m' b') = zlen (m b').
  Proof. intros (O & _). apply (only_zlen _ _ _ _ O). Qed.

  Lemma constant_pad_ok src out C H W P value act x :
    out <> Temp -> src <> Temp -> pads_ok C H W P -> zlen x = C * H * W ->
    layer_ok (constant_pad_c src out C H W P value act) [(src, x)] out
      (pad_OC C P * pad_OH H P * pad_OW W P) (pad_OC C P * pad_OH H P * pad_OW W P)
      (tab3 (pad_OC C P) (pad_OH H P) (pad_OW W P) (fun f i j => act
         (let c := f - pd_front P in let h := i - pd_top P in let w := j - pd_left P in
          if (0 <=? c) && (c <? C) && (0 <=? h) && (h <? H) && (0 <=? w) && (w <? W) then at3 d H W x c h w else value))).
  Proof.
    intros Ho Hs (HC & HH & HW & P1 & P2 & P3 & P4 & P5 & P6) Hx.
    unfold constant_pad_c. rewrite <- (map_id (tab3 _ _ _ _)).
    assert (0 <= pad_OC C P /\ 0 <= pad_OH H P /\ 0 <= pad_OW W P) as (OC & OH & OW) by (unfold pad_OC, pad_OH, pad_OW; lia).
    apply via_temp_ok; [exact Ho|apply zlen_tab3; assumption|].
    intros m Hm Ht. apply holds_src1 in Hm.
    apply fill3_stores; auto. intros f i j m' Hf Hi Hj O.
    assert (Hm' : holds m' src x) by (eapply holds_other; eauto).
    assert (Hk : 0 <= idx3 (pad_OH H P) (pad_OW W P) f i j < zlen (m' Temp)).
    { rewrite (only_zlen _ _ _ _ O). pose proof (idx3_range (pad_OC C P) _ _ _ _ _ Hf Hi Hj). lia. }
    change (j + pad_OW W P * (i + pad_OH H P * f)) with (idx3 (pad_OH H P) (pad_OW W P) f i j).
    assert (B : (pd_front P <=? f) && (f <? pad_OC C P - pd_back P) && (pd_top P <=? i) && (i <? pad_OH H P - pd_bottom P)
                  && (pd_left P <=? j) && (j <? pad_OW W P - pd_right P)
         = (0 <=? f - pd_front P) && (f - pd_front P <? C) && (0 <=? i - pd_top P) && (i - pd_top P <? H)
           && (0 <=? j - pd_left P) && (j - pd_left P <? W)).
    { unfold pad_OC, pad_OH, pad_OW. apply eq_true_iff_eq. rewrite !andb_true_iff, !Z.leb_le, !Z.ltb_lt. lia. }
    rewrite B.
    match goal with |- context [if ?b then _ else value] => set (bb := b); destruct bb eqn:E end; subst bb.
    - rewrite !andb_true_iff, !Z.leb_le, !Z.ltb_lt in E.
      rewrite (rd_at3 d m' src x C H W (f - pd_front P) (i - pd_top P) (j - pd_left P)); auto; try lia. cbn [bind].
      destruct (wr_stores m' Temp _ (at3 d H W x (f - pd_front P) (i - pd_top P) (j - pd_left P)) Hk) as (m1 & E1 & S1).
      rewrite E1. cbn [bind]. rewrite (rd_stored _ _ _ _ _ S1). cbn [bind].
      edestruct (wr_stores m1 Temp) as (m2 & E2 & S2); [rewrite (stored_zlen _ _ _ _ _ _ S1); exact Hk|].
      exists m2. split; [exact E2|]. eapply stores_trans; eauto.
    - destruct (wr_stores m' Temp _ value Hk) as (m1 & E1 & S1).
      rewrite E1. cbn [bind]. rewrite (rd_stored _ _ _ _ _ S1). cbn [bind].
      edestruct (wr_stores m1 Temp) as (m2 & E2 & S2); [rewrite (stored_zlen _ _ _ _ _ _ S1); exact Hk|].
      exists m2. split; [exact E2|]. eapply stores_trans; eauto.
  Qed.

  (** The result for any index computation that stays in range. *)
  Lemma nonconstant_pad_ok index (eC eH eW : Z -> Z) src out C H W P act x :
    out <> Temp -> src <> Temp -> pads_ok C H W P -> zlen x = C * H * W ->
    (forall f, 0 <= f < pad_OC C P -> index (pd_front P) C f = Some (eC (f - pd_front P)) /\ 0 <= eC (f - pd_front P) < C) ->
    (forall i, 0 <= i < pad_OH H P -> index (pd_top P) H i = Some (eH (i - pd_top P)) /\ 0 <= eH (i - pd_top P) < H) ->
    (forall j, 0 <= j < pad_OW W P -> index (pd_left P) W j = Some (eW (j - pd_left P)) /\ 0 <= eW (j - pd_left P) < W) ->
    layer_ok (nonconstant_pad_c index src out C H W P act) [(src, x)] out
      (pad_OC C P * pad_OH H P * pad_OW W P) (pad_OC C P * pad_OH H P * pad_OW W P)
      (tab3 (pad_OC C P) (pad_OH H P) (pad_OW W P) (fun f i j => act (act
         (at3 d H W x (eC (f - pd_front P)) (eH (i - pd_top P)) (eW (j - pd_left P)))))).
  Proof.
    intros Ho Hs (HC & HH & HW & P1 & P2 & P3 & P4 & P5 & P6) Hx IC IH IW.
    unfold nonconstant_pad_c. rewrite <- (map_id (tab3 _ _ _ _)).
    assert (0 <= pad_OC C P /\ 0 <= pad_OH H P /\ 0 <= pad_OW W P) as (OC & OH & OW) by (unfold pad_OC, pad_OH, pad_OW; lia).
    apply via_temp_ok; [exact Ho|apply zlen_tab3; assumption|].
    intros m Hm Ht. apply holds_src1 in Hm.
    apply fill3_stores; auto. intros f i j m' Hf Hi Hj O.
    assert (Hm' : holds m' src x) by (eapply holds_other; eauto).
    assert (Hk : 0 <= idx3 (pad_OH H P) (pad_OW W P) f i j < zlen (m' Temp)).
    { rewrite (only_zlen _ _ _ _ O). pose proof (idx3_range (pad_OC C P) _ _ _ _ _ Hf Hi Hj). lia. }
    change (j + pad_OW W P * (i + pad_OH H P * f)) with (idx3 (pad_OH H P) (pad_OW W P) f i j).
    destruct (IC f Hf) as (-> & RC). destruct (IH i Hi) as (-> & RH). destruct (IW j Hj) as (-> & RW). cbn [bind].
    rewrite (rd_at3 d m' src x C H W (eC (f - pd_front P)) (eH (i - pd_top P)) (eW (j - pd_left P))); auto. cbn [bind].
    destruct (wr_stores m' Temp _ (at3 d H W x (eC (f - pd_front P)) (eH (i - pd_top P)) (eW (j - pd_left P))) Hk) as (m1 & E1 & S1).
    rewrite E1. cbn [bind]. rewrite (rd_stored _ _ _ _ _ S1). cbn [bind].
    edestruct (wr_stores m1 Temp) as (m2 & E2 & S2); [rewrite (stored_zlen _ _ _ _ _ _ S1); exact Hk|].
    rewrite E2. cbn [bind]. rewrite (rd_stored _ _ _ _ _ S2). cbn [bind].
    edestruct (wr_stores m2 Temp) as (m3 & E3 & S3).
    { rewrite (stored_zlen _ _ _ _ _ _ S2), (stored_zlen _ _ _ _ _ _ S1). exact Hk. }
    exists m3. split; [exact E3|]. eapply stores_trans; [exact S1|]. eapply stores_trans; eauto.
  Qed.
End PadProofs.

(** *** One axis *)
Definition clamp (n k : Z) : Z := Z.min (Z.max k 0) (n - 1).
Lemma edge_index_ok p n k : 0 < n -> edge_index p n k = Some (clamp n (k - p)) /\ 0 <= clamp n (k - p) < n.
Proof.
  intros Hn. unfold edge_index, clamp. split; [|lia]. f_equal.
  destruct (Z.ltb_spec k p); destruct (Z.leb_spec (n + p) k); lia.
Qed.

Lemma wrap_index_ok p n k : 0 < n -> 0 <= p < n -> 0 <= k ->
  wrap_index p n k = Some ((k - p) mod n) /\ 0 <= (k - p) mod n < n.
Proof.
  intros Hn Hp Hk. split; [|apply Z.mod_pos_bound; exact Hn].
  unfold wrap_index, crem. destruct (Z.eqb_spec n 0); [lia|].
  destruct (Z.leb_spec (n + p) k); destruct (Z.ltb_spec k p); cbn [bind]; try lia; f_equal.
  - apply Z.rem_mod_nonneg; lia.
  -
    replace (k - p) with (- (p - k)) by lia. rewrite Z.rem_opp_l by lia. rewrite Z.rem_small by lia.
    rewrite <- (Z.mod_add (- (p - k)) 1 n) by lia. rewrite Z.mod_small; lia.
  - rewrite Z.mod_small; lia.
Qed.

(** [mirrored n e]: [e] extends the coordinates 0..n-1 to all integers by
    mirroring at the first and at the last one. *)
Definition mirrored (n : Z) (e : Z -> Z) : Prop :=
  (forall k, 0 <= k < n -> e k = k) /\ (forall k, e (- k) = e k) /\ (forall k, e (2 * (n - 1) - k) = e k).

Lemma mirrored_period n e k q : mirrored n e -> e (k + (2 * (n - 1)) * q) = e k.
Proof.
  intros (_ & E1 & E2).
  assert (S1 : forall k, e (k + 2 * (n - 1)) = e k).
  { intros u. rewrite <- (E1 u). rewrite <- (E2 (- u)). f_equal. lia. }
  assert (G : forall q, 0 <= q -> forall k, e (k + 2 * (n - 1) * q) = e k).
  { apply (natlike_ind (fun q => forall k, e (k + 2 * (n - 1) * q) = e k)).
    - intros u. f_equal. lia.
    - intros r Hr IH u. rewrite <- (IH u). rewrite <- (S1 (u + 2 * (n - 1) * r)). f_equal. lia. }
  destruct (Z_le_gt_dec 0 q); [auto|].
  rewrite <- (G (- q) ltac:(lia) (k + 2 * (n - 1) * q)). f_equal. lia.
Qed.

Lemma reflect_index_ok p n k e : 2 <= n -> mirrored n e ->
  reflect_index p n k = Some (e (k - p)) /\ 0 <= e (k - p) < n.
Proof.
  intros Hn M. unfold reflect_index, crem. cbv zeta. destruct (Z.eqb_spec (2 * (n - 1)) 0); [lia|]. cbn [bind].
  set (m := 2 * (n - 1)) in *.
  assert (Er : e (k - p) = e (Z.rem (p - k) m)).
  { pose proof (Z.quot_rem (p - k) m ltac:(lia)) as Q.
    rewrite <- (mirrored_period n e (Z.rem (p - k) m) (Z.quot (p - k) m) M). fold m.
    replace (Z.rem (p - k) m + m * Z.quot (p - k) m) with (- (k - p)) by lia.
    symmetry. apply M. }
  pose proof (Z.rem_bound_abs (p - k) m ltac:(lia)) as B.
  set (r := Z.rem (p - k) m) in *.
  set (r1 := if r <? 0 then m + r else r).
  assert (R1 : 0 <= r1 < m) by (unfold r1; destruct (Z.ltb_spec r 0); lia).
  assert (E1 : e r1 = e r).
  { unfold r1. destruct (Z.ltb_spec r 0); [|reflexivity].
    rewrite <- (mirrored_period n e r 1 M). f_equal. unfold m. lia. }
  set (r2 := if n - 1 <? r1 then m - r1 else r1).
  assert (R2 : 0 <= r2 < n) by (unfold r2; destruct (Z.ltb_spec (n - 1) r1); unfold m in *; lia).
  assert (E2 : e r2 = e r1).
  { unfold r2. destruct (Z.ltb_spec (n - 1) r1); [|reflexivity]. apply M. }
  rewrite Er, <- E1, <- E2. rewrite (proj1 M r2 R2). split; [reflexivity|exact R2].
Qed.

(** Such an extension exists and is unique when there are two coordinates. *)
Definition mirror (n k : Z) : Z := let r := k mod (2 * (n - 1)) in if r <? n then r else 2 * (n - 1) - r.
Lemma mirror_mirrored n : 2 <= n -> mirrored n (mirror n).
Proof.
  intros Hn. unfold mirrored, mirror. cbv zeta. set (m := 2 * (n - 1)). assert (0 < m) by lia.
  split; [|split].
  - intros k Hk. rewrite Z.mod_small by lia. destruct (Z.ltb_spec k n); lia.
  - intros k. pose proof (Z.mod_pos_bound k m ltac:(lia)).
    destruct (Z.eq_dec (k mod m) 0) as [E|E].
    + rewrite Z.mod_opp_l_z by lia. rewrite E. reflexivity.
    + rewrite Z.mod_opp_l_nz by lia. destruct (Z.ltb_spec (k mod m) n); destruct (Z.ltb_spec (m - k mod m) n); lia.
  - intros k. replace (m - k) with (- k + 1 * m) by lia. rewrite Z.mod_add by lia.
    pose proof (Z.mod_pos_bound k m ltac:(lia)).
    destruct (Z.eq_dec (k mod m) 0) as [E|E].
    + rewrite Z.mod_opp_l_z by lia. rewrite E. reflexivity.
    + rewrite Z.mod_opp_l_nz by lia. destruct (Z.ltb_spec (k mod m) n); destruct (Z.ltb_spec (m - k mod m) n); lia.
Qed.
