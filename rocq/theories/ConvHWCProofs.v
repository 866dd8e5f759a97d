From Coq Require Import ZArith List Lia Bool Ring.
Import ListNotations.
Open Scope Z_scope.
From Verif Require Import CMem Tensor Num Movement Conv ConvProofs ConvHWC.

(** ** Loops whose writes only ever make cells right *)
Section Mono.
  Context {V : Type} (b : bname) (F : Z -> V).
  Definition right_at (m : mem V) (q : Z) : Prop := rd m b q = Some (F q).
  Definition mono (m m' : mem V) : Prop := only m m' b /\ forall q, right_at m q -> right_at m' q.
  Lemma mono_refl m : mono m m.
  Proof. split; [apply only_refl|auto]. Qed.
  Lemma mono_trans m m1 m2 : mono m m1 -> mono m1 m2 -> mono m m2.
  Proof. intros [O1 R1] [O2 R2]. split; [eapply only_trans; eauto|auto]. Qed.
  Lemma wr_mono m q : 0 <= q < zlen (m b) -> exists m', wr m b q (F q) = Some m' /\ mono m m' /\ right_at m' q.
  Proof.
    intros H. destruct (wr_stores m b q (F q) H) as (m' & E & (O & R & S)). exists m'. split; [exact E|].
    split; [|exact R]. split; [exact O|]. intros k Hk. destruct (Z.eq_dec k q) as [->|Hn]; [exact R|].
    unfold right_at. rewrite S by exact Hn. exact Hk.
  Qed.
  Lemma for_mono n body (S : Z -> Z -> Prop) m : 0 <= n ->
    (forall k m', 0 <= k < n -> mono m m' -> exists m2, body k m' = Some m2 /\ mono m' m2 /\ forall q, S k q -> right_at m2 q) ->
    exists m', for_ n body m = Some m' /\ mono m m' /\ forall k q, 0 <= k < n -> S k q -> right_at m' q.
  Proof.
    intros Hn HB.
    destruct (for_inv (fun k m' => mono m m' /\ forall j q, 0 <= j < k -> S j q -> right_at m' q) n body m) as (m' & E & P).
    - exact Hn.
    - split; [apply mono_refl|]. intros; lia.
    - intros k m1 Hk (M & P). destruct (HB k m1 Hk M) as (m2 & E2 & M2 & R2). exists m2. split; [exact E2|].
      split; [eapply mono_trans; eauto|]. intros j q Hj Hq. destruct (Z.eq_dec j k) as [->|Hn']; [auto|].
      apply M2. apply (P j); [lia|exact Hq].
    - exists m'. tauto.
  Qed.
End Mono.

Section P.
  Context (N : num).
  Notation V := (T N).
  Notation z := (n0 N).

  (** ** Local arrays *)
  Lemma for_upd3 A B C (body : Z -> Z -> Z -> larr N -> option (larr N)) (g : Z -> Z -> Z -> V -> V) s :
    0 <= A -> 0 <= B -> 0 <= C ->
    (forall i j k s', 0 <= i < A -> 0 <= j < B -> 0 <= k < C ->
       body i j k s' = Some (upd3 N s' i j k (g i j k (s' i j k)))) ->
    exists s', for_ A (fun i => for_ B (fun j => for_ C (body i j))) s = Some s' /\
      forall i j k, 0 <= i < A -> 0 <= j < B -> 0 <= k < C -> s' i j k = g i j k (s i j k).
  Proof.
    intros HA HB HC Hb. rewrite for_nest3 by assumption.
    destruct (for_inv (fun n s' => forall i j k, 0 <= i < A -> 0 <= j < B -> 0 <= k < C ->
        s' i j k = if idx3 B C i j k <? n then g i j k (s i j k) else s i j k) (A * B * C)
      (fun k => body (k / (B * C)) ((k / C) mod B) (k mod C)) s) as (s' & E & P).
    - nia.
    - intros i j k Hi Hj Hk. pose proof (idx3_range A B C i j k Hi Hj Hk). destruct (Z.ltb_spec (idx3 B C i j k) 0); [lia|reflexivity].
    - intros n s1 Hn P. destruct (split3_range A B C n) as (Q1 & Q2 & Q3 & H1 & H2 & H3); auto.
      rewrite Hb by assumption. eexists. split; [reflexivity|]. intros i j k Hi Hj Hk.
      unfold upd3. destruct ((i =? _) && (j =? _) && (k =? _)) eqn:Eq.
      + rewrite !andb_true_iff, !Z.eqb_eq in Eq. destruct Eq as ((-> & ->) & ->).
        rewrite P by assumption. rewrite idx3_join by lia. rewrite Z.ltb_irrefl.
        destruct (Z.ltb_spec n (n + 1)); [reflexivity|lia].
      + rewrite P by assumption.
        assert (idx3 B C i j k <> n).
        { intros <-. destruct (idx3_split B C i j k) as (E1 & E2 & E3); lia. }
        destruct (Z.ltb_spec (idx3 B C i j k) n), (Z.ltb_spec (idx3 B C i j k) (n + 1)); try reflexivity; lia.
    - exists s'. split; [exact E|]. intros i j k Hi Hj Hk. rewrite P by assumption.
      pose proof (idx3_range A B C i j k Hi Hj Hk). destruct (Z.ltb_spec (idx3 B C i j k) (A * B * C)); [reflexivity|lia].
  Qed.

  (** ** Sums *)
  Lemma nsum3_nest (L : ring_laws N) A B C f : 0 <= A -> 0 <= B -> 0 <= C ->
    nsum3 (N := N) A B C f = nsum N A (fun i => nsum N B (fun j => nsum N C (fun k => f i j k))).
  Proof.
    intros HA HB HC. unfold nsum3.
    rewrite (nsum_nest N L A B (fun i j => nsum N C (fun k => f i j k))) by assumption.
    rewrite (nsum_nest N L (A * B) C (fun p k => f (p / B) (p mod B) k)) by nia.
    apply nsum_ext. intros k Hk. assert (0 < C) by nia. assert (0 < B) by nia.
    f_equal. rewrite Z.mul_comm. symmetry. apply Z.div_div; lia.
  Qed.

  Lemma iterZ_add (L : ring_laws N) n f a : iterZ n (fun k s => nadd N s (f k)) a = nadd N a (nsum N n f).
  Proof.
    destruct (Z_le_gt_dec n 0) as [Hn|Hn]; [rewrite nsum_0, iterZ_0 by lia; symmetry; apply (add_0_r N L)|].
    assert (G : forall k, 0 <= k -> k <= n -> iterZ k (fun k s => nadd N s (f k)) a = nadd N a (nsum N k f)).
    { intros k Hk. pattern k. revert k Hk. apply for_ind.
      - intros _. rewrite nsum_0, iterZ_0 by lia. symmetry; apply (add_0_r N L).
      - intros k Hk IH Hkn. rewrite nsum_succ, iterZ_succ by lia. rewrite IH by lia. symmetry. apply (add_assoc N L). }
    apply G; lia.
  Qed.

  Lemma nsum_range (L : ring_laws N) n s e f : 0 <= s -> e <= n -> 
    nsum N (e - s) (fun k => f (s + k)) = nsum N n (fun k => if (s <=? k) && (k <? e) then f k else z).
  Proof.
    intros Hs He. destruct (Z_le_gt_dec (e - s) 0) as [Hn|Hn].
    - rewrite (nsum_0 N (e - s)) by lia. symmetry. apply (nsum_zero N L). intros k Hk.
      destruct (Z.leb_spec s k), (Z.ltb_spec k e); try reflexivity; lia.
    - replace n with (s + ((e - s) + (n - e))) by ring.
      rewrite (nsum_split N L s), (nsum_split N L (e - s)) by lia.
      rewrite (nsum_zero N L s), (nsum_zero N L (n - e)).
      + rewrite (add_0_l N L), (add_0_r N L). apply nsum_ext. intros k Hk.
        destruct (Z.leb_spec s (s + k)), (Z.ltb_spec (s + k) e); try reflexivity; lia.
      + intros k Hk. destruct (Z.leb_spec s (s + ((e - s) + k))), (Z.ltb_spec (s + ((e - s) + k)) e); try reflexivity; lia.
      + intros k Hk. destruct (Z.leb_spec s k), (Z.ltb_spec k e); try reflexivity; lia.
  Qed.

  (** ** Rows accumulated in place *)
  Definition row_is (m : mem V) (b : bname) (base n : Z) (v : Z -> V) : Prop :=
    forall k, 0 <= k < n -> rd m b (base + k) = Some (v k).
  Definition row_step (b : bname) (base n : Z) (m m' : mem V) : Prop :=
    only m m' b /\ forall q, q < base \/ base + n <= q -> rd m' b q = rd m b q.

  Lemma row_step_refl b base n m : row_step b base n m m.
  Proof. split; [apply only_refl|auto]. Qed.
  Lemma row_step_trans b base n m m1 m2 : row_step b base n m m1 -> row_step b base n m1 m2 -> row_step b base n m m2.
  Proof. intros [O1 R1] [O2 R2]. split; [eapply only_trans; eauto|]. intros q Hq. rewrite R2, R1; auto. Qed.

  Lemma row_loop b base n steps body (term : Z -> Z -> V -> V) m v : 0 <= steps ->
    row_is m b base n v ->
    (forall p m' v', 0 <= p < steps -> row_step b base n m m' -> row_is m' b base n v' ->
       exists m2, body p m' = Some m2 /\ row_step b base n m' m2 /\ row_is m2 b base n (fun k => term p k (v' k))) ->
    exists m', for_ steps body m = Some m' /\ row_step b base n m m' /\
      row_is m' b base n (fun k => iterZ steps (fun p s => term p k s) (v k)).
  Proof.
    intros Hs Hv HB.
    destruct (for_inv (fun p m' => row_step b base n m m' /\ row_is m' b base n (fun k => iterZ p (fun p s => term p k s) (v k))) steps body m)
      as (m' & E & P).
    - exact Hs.
    - split; [apply row_step_refl|]. intros k Hk. rewrite iterZ_0 by lia. apply Hv. exact Hk.
    - intros p m1 Hp (R & I). destruct (HB p m1 _ Hp R I) as (m2 & E2 & R2 & I2). exists m2. split; [exact E2|].
      split; [eapply row_step_trans; eauto|]. intros k Hk. rewrite iterZ_succ by lia. apply I2. exact Hk.
    - exists m'. tauto.
  Qed.

  Lemma row_loop_any b base n steps body (term : Z -> Z -> V -> V) m v :
    row_is m b base n v ->
    (forall p m' v', 0 <= p < steps -> row_step b base n m m' -> row_is m' b base n v' ->
       exists m2, body p m' = Some m2 /\ row_step b base n m' m2 /\ row_is m2 b base n (fun k => term p k (v' k))) ->
    exists m', for_ steps body m = Some m' /\ row_step b base n m m' /\
      row_is m' b base n (fun k => iterZ steps (fun p s => term p k s) (v k)).
  Proof.
    intros Hv HB. destruct (Z_le_gt_dec 0 steps) as [H|H]; [apply row_loop; auto|].
    rewrite for_0 by lia. exists m. split; [reflexivity|]. split; [apply row_step_refl|].
    intros k Hk. rewrite iterZ_0 by lia. apply Hv. exact Hk.
  Qed.

  Lemma row_is_ext m b base n v v' : (forall k, 0 <= k < n -> v k = v' k) -> row_is m b base n v -> row_is m b base n v'.
  Proof. intros H R k Hk. rewrite R by exact Hk. f_equal. apply H. exact Hk. Qed.

  Lemma row_store b base n body m (new : Z -> V) : 0 <= n -> 0 <= base -> base + n <= zlen (m b) ->
    (forall j m', 0 <= j < n -> only m m' b -> body j m' = wr m' b (base + j) (new j)) ->
    exists m', for_ n body m = Some m' /\ row_step b base n m m' /\ row_is m' b base n new.
  Proof.
    intros Hn Hb HL HB. destruct (row_map n base body b m (fun j => nthZ (new 0) (m b) (base + j)) new) as (m' & E & O & P1 & P2); auto.
    - intros j Hj. apply rdl_nthZ. lia.
    - exists m'. split; [exact E|]. split; [split; assumption|exact P1].
  Qed.

  Lemma row_step_mono b base n F m m' : row_step b base n m m' -> row_is m' b base n (fun k => F (base + k)) ->
    mono b F m m' /\ forall q, base <= q < base + n -> right_at b F m' q.
  Proof.
    intros [O R] I. assert (G : forall q, base <= q < base + n -> right_at b F m' q).
    { intros q Hq. unfold right_at. specialize (I (q - base) ltac:(lia)). cbv beta in I. replace (base + (q - base)) with q in I by ring. exact I. }
    split; [split; [exact O|]|exact G]. intros q Hq.
    destruct (Z_lt_ge_dec q base); [unfold right_at; rewrite R by lia; exact Hq|].
    destruct (Z_lt_ge_dec q (base + n)); [apply G; lia|]. unfold right_at; rewrite R by lia; exact Hq.
  Qed.

  (** ** Channels-last views *)
  Lemma zp_to_first c (x : list V) p ii jj : zlen x = ic c * ih c * iw c -> 0 <= p < ic c ->
    zero_padded (ih c) (iw c) (to_first z (ic c) (ih c) (iw c) x) p ii jj
    = if inside c ii jj then at3 z (iw c) (ic c) x ii jj p else z.
  Proof.
    intros Hx Hp. rewrite zero_padded_inside. destruct (inside c ii jj) eqn:E; [|reflexivity].
    apply inside_spec in E. unfold to_first. rewrite at3_tab3 by lia. reflexivity.
  Qed.
  Lemma zlen_to_first C H W (x : list V) : 0 <= C -> 0 <= H -> 0 <= W -> zlen (to_first z C H W x) = C * H * W.
  Proof. intros. unfold to_first. apply zlen_tab3; assumption. Qed.

  Lemma rd_hwc m src (x : list V) c ii jj p : holds m src x -> zlen x = ic c * ih c * iw c ->
    0 <= ii < ih c -> 0 <= jj < iw c -> 0 <= p < ic c ->
    rd m src ((ii * iw c + jj) * ic c + p) = Some (at3 z (iw c) (ic c) x ii jj p).
  Proof.
    intros Hm Hx H1 H2 H3. apply (rd_at3 z m src x (ih c) (iw c) (ic c)); auto; [|unfold idx3; ring].
    rewrite Hx. ring.
  Qed.

  (** Value of an output cell before the activation; [spec_cell c s b q] with
      [s f i j] the sum. *)
  Definition cell c (s : Z -> Z -> Z -> V) (b : list V) (q : Z) : V :=
    nadd N (s (q mod nf c) (q / (ow c * nf c)) ((q / nf c) mod ow c)) (nthZ z b (q mod nf c)).

  Lemma to_last_cells c s (b : list V) act : 0 <= nf c -> 0 <= oh c -> 0 <= ow c ->
    to_last z (nf c) (oh c) (ow c) (map act (tab3 (nf c) (oh c) (ow c) (fun f i j => nadd N (s f i j) (nthZ z b f))))
    = map act (tab (nf c * oh c * ow c) (cell c s b)).
  Proof.
    intros H1 H2 H3. rewrite map_tab3, map_tab. unfold to_last, tab3 at 1.
    replace (oh c * ow c * nf c) with (nf c * oh c * ow c) by ring. apply tab_ext. intros q Hq.
    destruct (split3_range (oh c) (ow c) (nf c) q) as (P1 & P2 & P3 & P4 & P5 & P6); [lia|lia|lia|lia|].
    rewrite at3_tab3 by assumption. reflexivity.
  Qed.

  Lemma cell_at c s b i j f : 0 <= f < nf c -> 0 <= i < oh c -> 0 <= j < ow c ->
    cell c s b (i * ow c * nf c + j * nf c + f) = nadd N (s f i j) (nthZ z b f).
  Proof.
    intros Hf Hi Hj. unfold cell. replace (i * ow c * nf c + j * nf c + f) with (idx3 (ow c) (nf c) i j f) by (unfold idx3; ring).
    destruct (idx3_split (ow c) (nf c) i j f) as (-> & -> & ->); auto. lia.
  Qed.

  Lemma holds_cells m (F : Z -> V) n : 0 <= n <= zlen (m Temp) -> (forall q, 0 <= q < n -> right_at Temp F m q) ->
    holds m Temp (tab n F).
  Proof.
    intros Hn H. apply holds_intro; [rewrite zlen_tab by lia; lia|]. intros k Hk. rewrite zlen_tab in Hk by lia.
    rewrite rdl_tab by lia. apply H. exact Hk.
  Qed.

  Lemma decode n a b : 0 <= b < n -> (a * n + b) / n = a /\ (a * n + b) mod n = b.
  Proof.
    intros H. split; [rewrite Z.div_add_l, Z.div_small by lia; lia|].
    rewrite Z.add_comm, Z_mod_plus_full. apply Z.mod_small. lia.
  Qed.
End P.
