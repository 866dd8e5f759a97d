(** Channels-last pooling: code that updates a slab of consecutive cells. *)
From Coq Require Import ZArith List Lia Bool.
Import ListNotations.
Open Scope Z_scope.
From Verif Require Import CMem Tensor Num Activation Pooling PoolingProofs.

Section Slab.
  Context {V : Type}.
  Notation mem := (mem V).
  (** [m'] is [m] with cells [o .. o+C-1] of [b] set to [val 0 .. val (C-1)]. *)
  Definition slab (m m' : mem) (b : bname) (o C : Z) (val : Z -> V) : Prop :=
    only m m' b /\ (forall c, 0 <= c < C -> rd m' b (o + c) = Some (val c)) /\
    (forall k, k < o \/ o + C <= k -> rd m' b k = rd m b k).

  Lemma only_trans (m m1 m2 : mem) b : only m m1 b -> only m1 m2 b -> only m m2 b.
  Proof. intros (L1 & O1) (L2 & O2). split; [lia|]. intros b' H. rewrite O2, O1; auto. Qed.

  Lemma slab_trans m m1 m2 b o C v1 v2 : slab m m1 b o C v1 -> slab m1 m2 b o C v2 -> slab m m2 b o C v2.
  Proof.
    intros (O1 & R1 & S1) (O2 & R2 & S2). split; [eapply only_trans; eauto|]. split; [exact R2|].
    intros k Hk. rewrite S2, S1; auto.
  Qed.
  Lemma slab_ext m m' b o C v1 v2 : (forall c, 0 <= c < C -> v1 c = v2 c) -> slab m m' b o C v1 -> slab m m' b o C v2.
  Proof. intros E (O & R & S). split; [exact O|]. split; [|exact S]. intros c Hc. rewrite <- E by exact Hc. auto. Qed.

  Lemma slab_fill (m : mem) b o C (body : Z -> mem -> option mem) val :
    0 <= C -> 0 <= o -> o + C <= zlen (m b) ->
    (forall c m1, 0 <= c < C -> only m m1 b -> rd m1 b (o + c) = rd m b (o + c) -> body c m1 = wr m1 b (o + c) (val c)) ->
    exists m', for_ C body m = Some m' /\ slab m m' b o C val.
  Proof.
    intros HC Ho HL HB.
    destruct (for_inv (fun n m' => only m m' b /\ (forall c, 0 <= c < n -> rd m' b (o + c) = Some (val c)) /\
        (forall k, k < o \/ o + n <= k -> rd m' b k = rd m b k)) C body m) as (m' & E & P).
    - exact HC.
    - split; [apply only_refl|]. split; [intros; lia|reflexivity].
    - intros c m1 Hc ((L & O) & R & S). rewrite HB; [|exact Hc|split; assumption|apply S; lia].
      destruct (wr_spec m1 b (o + c) (val c)) as (m2 & E2 & L2 & R2 & R3 & O2); [lia|].
      exists m2. split; [exact E2|]. split; [split; [lia|]|split].
      + intros b' Hb'. rewrite O2 by exact Hb'. auto.
      + intros i Hi. destruct (Z.eq_dec i c) as [->|]; [exact R2|]. rewrite R3 by lia. apply R. lia.
      + intros k Hk. rewrite R3 by lia. apply S. lia.
    - exists m'. split; [exact E|exact P].
  Qed.

  Lemma slab_loop (m0 m : mem) b o C n (body : Z -> mem -> option mem) (g : Z -> Z -> V -> V) v0 :
    0 <= n -> slab m0 m b o C v0 ->
    (forall k m1 v, 0 <= k < n -> slab m0 m1 b o C v -> exists m2, body k m1 = Some m2 /\ slab m0 m2 b o C (fun c => g k c (v c))) ->
    exists m2, for_ n body m = Some m2 /\ slab m0 m2 b o C (fun c => iterZ n (fun k a => g k c a) (v0 c)).
  Proof.
    intros Hn HS HB.
    apply (for_inv (fun n m2 => slab m0 m2 b o C (fun c => iterZ n (fun k a => g k c a) (v0 c)))); [exact Hn| |].
    - eapply slab_ext; [|exact HS]. intros. rewrite iterZ_0 by lia. reflexivity.
    - intros k m1 Hk HS1. destruct (HB k m1 _ Hk HS1) as (m2 & E & S2). exists m2. split; [exact E|].
      eapply slab_ext; [|exact S2]. intros c Hc. cbv beta. rewrite iterZ_succ by lia. reflexivity.
  Qed.

  Lemma fill_slabs (m : mem) b C n (body : Z -> mem -> option mem) (val : Z -> Z -> V) :
    0 <= C -> 0 <= n -> n * C <= zlen (m b) ->
    (forall p m1, 0 <= p < n -> only m m1 b -> exists m2, body p m1 = Some m2 /\ slab m1 m2 b (p * C) C (val p)) ->
    exists m', for_ n body m = Some m' /\ only m m' b /\ holds m' b (tab (n * C) (fun k => val (k / C) (k mod C))).
  Proof.
    intros HC Hn HL HB.
    destruct (for_inv (fun p m' => only m m' b /\ (forall k, 0 <= k < p * C -> rd m' b k = Some (val (k / C) (k mod C)))) n body m)
      as (m' & E & O & R).
    - exact Hn.
    - split; [apply only_refl|]. intros; lia.
    - intros p m1 Hp (O & R). destruct (HB p m1 Hp O) as (m2 & E & O2 & R2 & S2). exists m2. split; [exact E|].
      split; [eapply only_trans; eauto|]. intros k Hk. destruct (Z_lt_ge_dec k (p * C)).
      + rewrite S2 by lia. apply R. lia.
      + assert (0 < C) by nia. replace k with (p * C + (k - p * C)) at 1 by lia. rewrite R2 by lia. f_equal. f_equal.
        * apply (Z.div_unique_pos _ _ _ (k - p * C)); lia.
        * apply (Z.mod_unique_pos _ _ p); lia.
    - exists m'. split; [exact E|]. split; [exact O|]. apply holds_intro.
      + rewrite zlen_tab by nia. rewrite (only_zlen m m' b b O). exact HL.
      + intros k Hk. rewrite zlen_tab in Hk by nia. rewrite rdl_tab by lia. apply R. lia.
  Qed.

  Lemma fill_slabs2 (m : mem) b C OH OW (body : Z -> Z -> mem -> option mem) (val : Z -> Z -> Z -> V) :
    0 <= C -> 0 <= OH -> 0 <= OW -> OH * OW * C <= zlen (m b) ->
    (forall oh ow m1, 0 <= oh < OH -> 0 <= ow < OW -> only m m1 b ->
       exists m2, body oh ow m1 = Some m2 /\ slab m1 m2 b ((oh * OW + ow) * C) C (val oh ow)) ->
    exists m', for_ OH (fun oh => for_ OW (body oh)) m = Some m' /\ only m m' b /\ holds m' b (tab3 OH OW C val).
  Proof.
    intros HC HH HW HL HB. rewrite for_nest by assumption.
    destruct (fill_slabs m b C (OH * OW) (fun k => body (k / OW) (k mod OW)) (fun p => val (p / OW) (p mod OW))) as (m' & E & O & R); auto.
    - nia.
    - intros p m1 Hp O. destruct (tab2_range OH OW p Hp) as (P1 & P2 & P3 & P4); auto.
      destruct (HB _ _ m1 P3 P4 O) as (m2 & E2 & S2). exists m2. split; [exact E2|].
      pose proof (Z.div_mod p OW ltac:(lia)) as D. replace (p / OW * OW + p mod OW) with p in S2 by lia. exact S2.
    - exists m'. split; [exact E|]. split; [exact O|]. unfold tab3. erewrite tab_ext; [exact R|].
      intros k Hk. cbv beta. destruct (split3_range OH OW C k) as (Q1 & Q2 & Q3 & _); auto.
      rewrite Z.div_div by lia. rewrite (Z.mul_comm C OW). reflexivity.
  Qed.
End Slab.

Section HWC.
  Context (N : num) (ninf : T N).
  Notation V := (T N).
  Notation mem := (mem V).

  Definition hwc_get (P : pool) (x : list V) (c : Z) (a b : Z) : V := at3 (n0 N) (p_IW P) (p_C P) x a b c.
  (** The window as the channels-last template sees it: one padding for both directions. *)
  Definition hwc_window (P : pool) (x : list V) (c i j : Z) : list V :=
    window (hwc_get P x c) (p_IH P) (p_IW P) (p_size P) (p_stride P) (p_left P) (p_left P) i j.

  Lemma hwc_loop_ok P src oh ow step (m0 m : mem) x v0 :
    sizes_ok P -> src <> Temp -> holds m src x -> zlen x = p_IH P * p_IW P * p_C P -> 0 <= oh < p_OH P -> 0 <= ow < p_OW P ->
    p_OH P * p_OW P * p_C P <= zlen (m Temp) ->
    slab m0 m Temp ((oh * p_OW P + ow) * p_C P) (p_C P) v0 ->
    exists m2, hwc_loop N P src oh ow step m = Some m2 /\
      slab m0 m2 Temp ((oh * p_OW P + ow) * p_C P) (p_C P)
        (fun c => fold_left (fun u v => step v u) (hwc_window P x c oh ow) (v0 c)).
  Proof.
    intros (HC & HH & HW) Hs Hm Hx Hoh How HL HS. unfold hwc_loop.
    set (o := (oh * p_OW P + ow) * p_C P) in *.
    set (hs := Z.max 0 (p_left P - oh * p_stride P)) in *. set (he := Z.min (p_size P) (p_IH P + p_left P - oh * p_stride P)) in *.
    set (ws := Z.max 0 (p_left P - ow * p_stride P)) in *. set (we := Z.min (p_size P) (p_IW P + p_left P - ow * p_stride P)) in *.
    assert (Hsrc : forall m1 v, slab m0 m1 Temp o (p_C P) v -> holds m1 src x).
    { intros m1 v ((_ & O1) & _). destruct HS as ((_ & O0) & _). eapply holds_eq; [|exact Hm]. rewrite O1, O0; auto. }
    assert (Hzl : forall m1 v, slab m0 m1 Temp o (p_C P) v -> zlen (m1 Temp) = zlen (m Temp)).
    { intros m1 v (O1 & _). destruct HS as (O0 & _). rewrite (only_zlen m0 m1 Temp Temp O1), (only_zlen m0 m Temp Temp O0). reflexivity. }
    assert (Ho : 0 <= o /\ o + p_C P <= p_OH P * p_OW P * p_C P).
    { unfold o. assert (0 <= oh * p_OW P + ow < p_OH P * p_OW P) by nia. nia. }
    (* the list read for channel c *)
    assert (WIN : forall c, hwc_window P x c oh ow =
      flat_map (fun h => flat_map (fun w => [hwc_get P x c (oh * p_stride P + (hs + h) - p_left P) (ow * p_stride P + (ws + w) - p_left P)])
         (zrange (we - ws))) (zrange (he - hs))).
    { intros c. unfold hwc_window, window. cbv zeta. rewrite (zrange_clip (p_size P) hs he); [|unfold hs; lia|unfold he; lia|].
      - apply flat_map_ext_in. intros h Hh. apply in_zrange in Hh.
        rewrite (zrange_clip (p_size P) ws we); [|unfold ws; lia|unfold we; lia|].
        + apply flat_map_ext_in. intros w Hw. apply in_zrange in Hw.
          assert (B : (0 <=? oh * p_stride P + (hs + h) - p_left P) && (oh * p_stride P + (hs + h) - p_left P <? p_IH P) &&
                  (0 <=? ow * p_stride P + (ws + w) - p_left P) && (ow * p_stride P + (ws + w) - p_left P <? p_IW P) = true).
          { rewrite !andb_true_iff, !Z.leb_le, !Z.ltb_lt. unfold hs, he, ws, we in *. lia. }
          rewrite B. reflexivity.
        + intros w Hw Hout. match goal with |- (if ?b then _ else _) = _ => destruct b eqn:B end; [|reflexivity].
          rewrite !andb_true_iff, !Z.leb_le, !Z.ltb_lt in B. unfold ws, we in *. lia.
      - intros h Hh Hout. apply flat_map_nil. intros w _. match goal with |- (if ?b then _ else _) = _ => destruct b eqn:B end; [|reflexivity].
        rewrite !andb_true_iff, !Z.leb_le, !Z.ltb_lt in B. unfold hs, he in *. lia. }
    assert (INNER : forall h m1 v, 0 <= h < he - hs -> slab m0 m1 Temp o (p_C P) v ->
      exists m2, for_ (we - ws) (fun w => for_ (p_C P) (fun c m =>
          u <- rd m Temp (o + c) ;; y <- rd m src (((oh * p_stride P + (hs + h) - p_left P) * p_IW P + (ow * p_stride P + (ws + w) - p_left P)) * p_C P + c) ;;
          wr m Temp (o + c) (step y u))) m1 = Some m2 /\
        slab m0 m2 Temp o (p_C P) (fun c => fold_left (fun u v => step v u)
           (flat_map (fun w => [hwc_get P x c (oh * p_stride P + (hs + h) - p_left P) (ow * p_stride P + (ws + w) - p_left P)]) (zrange (we - ws))) (v c))).
    { intros h m1 v Hh HS1. destruct (Z_le_gt_dec (we - ws) 0) as [Hz|Hz].
      { rewrite for_0, zrange_0 by lia. exists m1. split; [reflexivity|]. exact HS1. }
      destruct (slab_loop m0 m1 Temp o (p_C P) (we - ws)
         (fun w => for_ (p_C P) (fun c m =>
          u <- rd m Temp (o + c) ;; y <- rd m src (((oh * p_stride P + (hs + h) - p_left P) * p_IW P + (ow * p_stride P + (ws + w) - p_left P)) * p_C P + c) ;;
          wr m Temp (o + c) (step y u)))
         (fun w c a => step (hwc_get P x c (oh * p_stride P + (hs + h) - p_left P) (ow * p_stride P + (ws + w) - p_left P)) a) v) as (m2 & E2 & S2);
        [lia|exact HS1| |].
      - intros w m2 v2 Hw HS2.
        destruct (slab_fill m2 Temp o (p_C P) (fun c m =>
          u <- rd m Temp (o + c) ;; y <- rd m src (((oh * p_stride P + (hs + h) - p_left P) * p_IW P + (ow * p_stride P + (ws + w) - p_left P)) * p_C P + c) ;;
          wr m Temp (o + c) (step y u))
          (fun c => step (hwc_get P x c (oh * p_stride P + (hs + h) - p_left P) (ow * p_stride P + (ws + w) - p_left P)) (v2 c))) as (m3 & E3 & S3);
          [lia|lia|rewrite (Hzl m2 v2 HS2); lia| |].
        + intros c m3 Hc O3 R3. pose proof HS2 as (O2 & R2 & _). rewrite R3, R2 by exact Hc. cbn [bind].
          rewrite (rd_at3 (n0 N) m3 src x (p_IH P) (p_IW P) (p_C P) (oh * p_stride P + (hs + h) - p_left P) (ow * p_stride P + (ws + w) - p_left P) c);
            [reflexivity| |exact Hx|unfold hs, he in *; lia|unfold ws, we in *; lia|exact Hc|unfold idx3; ring].
          apply (holds_other m2 m3 Temp src x O3 Hs). exact (Hsrc m2 v2 HS2).
        + exists m3. split; [exact E3|]. eapply slab_trans; eauto.
      - exists m2. split; [exact E2|]. eapply slab_ext; [|exact S2]. intros c Hc. cbv beta.
        rewrite <- iter_fold. cbn [fold_left]. reflexivity. }
    destruct (Z_le_gt_dec (he - hs) 0) as [Hz|Hz].
    { rewrite for_0 by lia. exists m. split; [reflexivity|]. eapply slab_ext; [|exact HS]. intros c Hc. cbv beta. rewrite WIN, (zrange_0 (he - hs)) by lia. reflexivity. }
    destruct (slab_loop m0 m Temp o (p_C P) (he - hs)
       (fun h => for_ (we - ws) (fun w => for_ (p_C P) (fun c m =>
          u <- rd m Temp (o + c) ;; y <- rd m src (((oh * p_stride P + (hs + h) - p_left P) * p_IW P + (ow * p_stride P + (ws + w) - p_left P)) * p_C P + c) ;;
          wr m Temp (o + c) (step y u))))
       (fun h c a => fold_left (fun u v => step v u)
           (flat_map (fun w => [hwc_get P x c (oh * p_stride P + (hs + h) - p_left P) (ow * p_stride P + (ws + w) - p_left P)]) (zrange (we - ws))) a) v0)
      as (m2 & E2 & S2); [lia|exact HS|exact INNER|].
    exists m2. split; [exact E2|]. eapply slab_ext; [|exact S2]. intros c Hc. cbv beta. rewrite WIN, iter_fold. reflexivity.
  Qed.

  Lemma hwc_max_ok P src out x : out <> Temp -> src <> Temp -> sizes_ok P -> zlen x = p_IH P * p_IW P * p_C P ->
    layer_ok (hwc_max N ninf P src out) [(src, x)] out (p_OH P * p_OW P * p_C P) (p_OH P * p_OW P * p_C P)
      (tab3 (p_OH P) (p_OW P) (p_C P) (fun i j c => fold_left (np_maximum N) (hwc_window P x c i j) ninf)).
  Proof.
    intros Ho Hs HP Hx. pose proof HP as (HC & HH & HW). rewrite <- (map_id (tab3 _ _ _ _)).
    apply via_temp_ok; [exact Ho|apply zlen_tab3; assumption|]. intros m Hm Ht. apply holds_src1 in Hm.
    apply fill_slabs2; [assumption..|]. intros oh ow m1 Hoh How O1.
    assert (Hp : 0 <= (oh * p_OW P + ow) * p_C P /\ (oh * p_OW P + ow) * p_C P + p_C P <= p_OH P * p_OW P * p_C P).
    { assert (0 <= oh * p_OW P + ow < p_OH P * p_OW P) by nia. nia. }
    destruct (slab_fill m1 Temp ((oh * p_OW P + ow) * p_C P) (p_C P) (fun c m => wr m Temp ((oh * p_OW P + ow) * p_C P + c) ninf) (fun _ => ninf))
      as (m2 & E2 & S2); [lia|lia|rewrite (only_zlen m m1 Temp Temp O1); lia|reflexivity|].
    rewrite E2. cbn [bind].
    destruct (hwc_loop_ok P src oh ow (fun v u => if nlt N u v then v else u) m1 m2 x (fun _ => ninf)) as (m3 & E3 & S3); auto.
    - eapply holds_other; [apply S2|exact Hs|]. eapply holds_other; eauto.
    - destruct S2 as (O2 & _). rewrite (only_zlen m1 m2 Temp Temp O2), (only_zlen m m1 Temp Temp O1). exact Ht.
    - exists m3. split; [exact E3|]. exact S3.
  Qed.

  Lemma hwc_avg_ok P src out x : out <> Temp -> src <> Temp -> sizes_ok P -> zlen x = p_IH P * p_IW P * p_C P ->
    layer_ok (hwc_avg N P src out) [(src, x)] out (p_OH P * p_OW P * p_C P) (p_OH P * p_OW P * p_C P)
      (tab3 (p_OH P) (p_OW P) (p_C P) (fun i j c =>
         nmul N (fold_left (nadd N) (hwc_window P x c i j) (n0 N)) (ndiv N (n1 N) (nofZ N (p_size P * p_size P))))).
  Proof.
    intros Ho Hs HP Hx. pose proof HP as (HC & HH & HW). rewrite <- (map_id (tab3 _ _ _ _)). unfold hwc_avg.
    set (inv := ndiv N (n1 N) (nofZ N (p_size P * p_size P))).
    apply via_temp_ok; [exact Ho|apply zlen_tab3; assumption|]. intros m Hm Ht. apply holds_src1 in Hm.
    apply fill_slabs2; [assumption..|]. intros oh ow m1 Hoh How O1.
    assert (Hp : 0 <= (oh * p_OW P + ow) * p_C P /\ (oh * p_OW P + ow) * p_C P + p_C P <= p_OH P * p_OW P * p_C P).
    { assert (0 <= oh * p_OW P + ow < p_OH P * p_OW P) by nia. nia. }
    destruct (slab_fill m1 Temp ((oh * p_OW P + ow) * p_C P) (p_C P) (fun c m => wr m Temp ((oh * p_OW P + ow) * p_C P + c) (n0 N)) (fun _ => n0 N))
      as (m2 & E2 & S2); [lia|lia|rewrite (only_zlen m m1 Temp Temp O1); lia|reflexivity|].
    rewrite E2. cbn [bind].
    destruct (hwc_loop_ok P src oh ow (fun v u => nadd N u v) m1 m2 x (fun _ => n0 N)) as (m3 & E3 & S3); auto.
    - eapply holds_other; [apply S2|exact Hs|]. eapply holds_other; eauto.
    - destruct S2 as (O2 & _). rewrite (only_zlen m1 m2 Temp Temp O2), (only_zlen m m1 Temp Temp O1). exact Ht.
    - rewrite E3. cbn [bind]. destruct S3 as (O3 & R3 & S3).
      destruct (slab_fill m3 Temp ((oh * p_OW P + ow) * p_C P) (p_C P)
         (fun c m => u <- rd m Temp ((oh * p_OW P + ow) * p_C P + c) ;; wr m Temp ((oh * p_OW P + ow) * p_C P + c) (nmul N u inv))
         (fun c => nmul N (fold_left (nadd N) (hwc_window P x c oh ow) (n0 N)) inv)) as (m4 & E4 & S4).
      + lia.
      + lia.
      + rewrite (only_zlen m1 m3 Temp Temp O3), (only_zlen m m1 Temp Temp O1). lia.
      + intros c m4 Hc O4 R4. rewrite R4, R3 by exact Hc. reflexivity.
      + exists m4. split; [exact E4|]. eapply slab_trans; [split; [exact O3|split; [exact R3|exact S3]]|exact S4].
  Qed.
End HWC.
