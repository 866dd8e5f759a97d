(** * The pointer table of the indirect GEMM convolution. *)
From Coq Require Import ZArith List Lia Bool Permutation.
Import ListNotations.
Open Scope Z_scope.
From Verif Require Import CMem Tensor Num Padding Conv ConvProofs.

Lemma idx3_lt_inv H W c h w c' h' w' : 0 <= h < H -> 0 <= w < W -> 0 <= h' < H -> 0 <= w' < W ->
  idx3 H W c h w < idx3 H W c' h' w' -> c < c' \/ (c = c' /\ (h < h' \/ (h = h' /\ w < w'))).
Proof.
  unfold idx3. intros Hh Hw Hh' Hw' L. destruct (Z_lt_ge_dec c c') as [|Hc]; [left; assumption|]. right.
  assert (c = c').
  { destruct (Z.eq_dec c c') as [|Hn]; [assumption|exfalso].
    assert (h' + H * c' + 1 <= h + H * c) by nia. nia. }
  subst c'. split; [reflexivity|].
  destruct (Z_lt_ge_dec h h') as [|Hg]; [left; assumption|]. right.
  assert (h = h') by (destruct (Z.eq_dec h h'); [assumption|exfalso]; nia). subst h'. split; lia.
Qed.

Lemma idx3_lt H W c h w c' h' w' : 0 <= h < H -> 0 <= w < W -> 0 <= h' < H -> 0 <= w' < W ->
  c < c' \/ (c = c' /\ (h < h' \/ (h = h' /\ w < w'))) -> idx3 H W c h w < idx3 H W c' h' w'.
Proof.
  unfold idx3. intros B1 B2 B3 B4 [Hc|[-> [Hh|[-> Hw]]]]; [|nia|nia].
  assert (h + H * c + 1 <= h' + H * c') by nia. nia.
Qed.

Section Indirect.
  Context (c : conv_params).
  Let hp := ih c + pt c + pb c.
  Let wp := iw c + pl c + pr c.
  Let n := ic c * ih c * iw c.

  Record geometry : Prop := {
    g_ic : 0 <= ic c; g_ih : 0 < ih c; g_iw : 0 < iw c; g_kh : 0 < kh c; g_kw : 0 < kw c;
    g_s : 0 < strides c; g_pt : 0 <= pt c; g_pl : 0 <= pl c; g_pb : 0 <= pb c; g_pr : 0 <= pr c;
    g_oh0 : 0 <= oh c; g_ow0 : 0 <= ow c;
    g_oh : oh c = conv_output_size (ih c) (pt c) (pb c) (kh c) (strides c) 1;
    g_ow : ow c = conv_output_size (iw c) (pl c) (pr c) (kw c) (strides c) 1 }.

  (** Every input row and every input column is read by some window. *)
  Definition covers : Prop :=
    (forall i, 0 <= i < ih c -> exists y h, 0 <= y < oh c /\ 0 <= h < kh c /\ y * strides c + h = i + pt c) /\
    (forall j, 0 <= j < iw c -> exists x w, 0 <= x < ow c /\ 0 <= w < kw c /\ x * strides c + w = j + pl c).

  Lemma window_range size before after kernel s o y h :
    0 < s -> o = conv_output_size size before after kernel s 1 -> 0 <= y < o -> 0 <= h < kernel ->
    0 <= y * s + h < size + before + after.
  Proof.
    intros Hs Ho Hy Hh. unfold conv_output_size in Ho.
    replace (size + after + before - kernel - (kernel - 1) * (1 - 1)) with (size + before + after - kernel) in Ho by ring.
    pose proof (Z.mul_div_le (size + before + after - kernel) s Hs). nia.
  Qed.

  (** Coordinates in the padded image of entry (k, q). *)
  Let ch k := k / (kh c * kw c).
  Let row k q := (q / ow c) * strides c + (k / kw c) mod kh c.
  Let col k q := (q mod ow c) * strides c + k mod kw c.

  Lemma entry_coords (G : geometry) k q : 0 <= k < patches_height c -> 0 <= q < patches_width c ->
    0 <= ch k < ic c /\ 0 <= row k q < hp /\ 0 <= col k q < wp.
  Proof.
    intros Hk Hq. destruct G.
    destruct (split3_range (ic c) (kh c) (kw c) k) as (_ & _ & _ & K1 & K2 & K3); [exact Hk|lia|lia|lia|].
    destruct (tab2_range (oh c) (ow c) q) as (_ & _ & Q1 & Q2); [exact Hq|lia|lia|].
    split; [exact K1|]. split.
    - unfold row, hp. apply (window_range (ih c) (pt c) (pb c) (kh c) (strides c) (oh c)); assumption.
    - unfold col, wp. apply (window_range (iw c) (pl c) (pr c) (kw c) (strides c) (ow c)); assumption.
  Qed.

  Lemma raw_entry k q : start_idx c hp wp k + offset_idx c wp q = idx3 hp wp (ch k) (row k q) (col k q).
  Proof. unfold start_idx, offset_idx, idx3, ch, row, col. ring. Qed.

  Lemma is_pad_spec (G : geometry) f a b : 0 <= f -> 0 <= a < hp -> 0 <= b < wp ->
    is_pad c (idx3 hp wp f a b) = negb ((pt c <=? a) && (a <? pt c + ih c) && (pl c <=? b) && (b <? pl c + iw c)).
  Proof.
    intros Hf Ha Hb. unfold is_pad. fold hp wp. destruct (idx3_split hp wp f a b) as (_ & E2 & E3); auto.
    rewrite E2, E3. rewrite !Z.geb_leb.
    apply eq_true_iff_eq. rewrite negb_true_iff, !orb_true_iff, !Z.ltb_lt, !Z.leb_le.
    rewrite <- not_true_iff_false, !andb_true_iff, !Z.ltb_lt, !Z.leb_le. unfold hp, wp in *. lia.
  Qed.

  (** Position in the padded image of input element [r]. *)
  Definition padded_pos (r : Z) : Z :=
    idx3 hp wp (r / (ih c * iw c)) ((r / iw c) mod ih c + pt c) (r mod iw c + pl c).

  Lemma padded_pos_idx3 (G : geometry) f i j : 0 <= f -> 0 <= i < ih c -> 0 <= j < iw c ->
    padded_pos (idx3 (ih c) (iw c) f i j) = idx3 hp wp f (i + pt c) (j + pl c).
  Proof. intros. unfold padded_pos. destruct (idx3_split (ih c) (iw c) f i j) as (-> & -> & ->); auto. Qed.

  Lemma padded_pos_mono (G : geometry) r r' : 0 <= r -> r < r' -> r' < n -> padded_pos r < padded_pos r'.
  Proof.
    intros H1 H2 H3. destruct G.
    destruct (split3_range (ic c) (ih c) (iw c) r) as (_ & _ & _ & K1 & K2 & K3); [unfold n in *; lia|lia|lia|lia|].
    destruct (split3_range (ic c) (ih c) (iw c) r') as (_ & _ & _ & K1' & K2' & K3'); [unfold n in *; lia|lia|lia|lia|].
    unfold padded_pos. apply idx3_lt; [unfold hp; lia|unfold wp; lia|unfold hp; lia|unfold wp; lia|].
    assert (L : idx3 (ih c) (iw c) (r / (ih c * iw c)) ((r / iw c) mod ih c) (r mod iw c) <
                idx3 (ih c) (iw c) (r' / (ih c * iw c)) ((r' / iw c) mod ih c) (r' mod iw c)).
    { rewrite !idx3_join by lia. exact H2. }
    apply idx3_lt_inv in L; auto. lia.
  Qed.
  Lemma padded_pos_inj (G : geometry) r r' : 0 <= r < n -> 0 <= r' < n -> padded_pos r = padded_pos r' -> r = r'.
  Proof.
    intros H1 H2 E. destruct (Z.lt_trichotomy r r') as [L|[L|L]]; [|exact L|].
    - apply (padded_pos_mono G) in L; lia.
    - apply (padded_pos_mono G) in L; lia.
  Qed.

  Let raw := raw_idx c hp wp.
  Let used := filter (fun v => negb (is_pad c v)) raw.

  Lemma in_raw v : 0 <= patches_width c -> In v raw <-> exists k q, 0 <= k < patches_height c /\ 0 <= q < patches_width c /\
      v = start_idx c hp wp k + offset_idx c wp q.
  Proof.
    intros HPW. unfold raw, raw_idx, tab2, tab. rewrite in_map_iff. split.
    - intros (u & <- & Hu). apply in_seq in Hu.
      assert (Hu' : 0 <= Z.of_nat u < patches_height c * patches_width c) by lia.
      assert (0 < patches_width c) by (destruct (Z.eq_dec (patches_width c) 0) as [E0|]; [rewrite E0 in Hu'|]; lia).
      exists (Z.of_nat u / patches_width c), (Z.of_nat u mod patches_width c).
      split; [|split; [apply Z.mod_pos_bound; lia|reflexivity]].
      split; [apply Z.div_pos; lia|]. apply Z.div_lt_upper_bound; nia.
    - intros (k & q & Hk & Hq & ->). exists (Z.to_nat (k * patches_width c + q)).
      rewrite Z2Nat.id by nia. split.
      + rewrite Z.div_add_l, (Z.div_small q) by lia. rewrite (Z.add_comm (k * _)), Z_mod_plus_full, Z.mod_small by lia.
        rewrite Z.add_0_r. reflexivity.
      + apply in_seq. nia.
  Qed.

  Lemma in_used (G : geometry) (CV : covers) v : In v used <-> exists r, 0 <= r < n /\ v = padded_pos r.
  Proof.
    unfold used. rewrite filter_In, in_raw by (unfold patches_width; pose proof G as []; nia). split.
    - intros ((k & q & Hk & Hq & ->) & Hp). destruct (entry_coords G k q Hk Hq) as (B1 & B2 & B3).
      rewrite raw_entry in Hp |- *. rewrite (is_pad_spec G) in Hp by lia. rewrite negb_involutive in Hp.
      rewrite !andb_true_iff, !Z.leb_le, !Z.ltb_lt in Hp.
      exists (idx3 (ih c) (iw c) (ch k) (row k q - pt c) (col k q - pl c)). split.
      + apply idx3_range; lia.
      + rewrite (padded_pos_idx3 G) by lia. f_equal; ring.
    - intros (r & Hr & ->). pose proof G as [].
      destruct (split3_range (ic c) (ih c) (iw c) r) as (P1 & P2 & P3 & K1 & K2 & K3); [exact Hr|lia|lia|lia|].
      destruct CV as [CV1 CV2]. destruct (CV1 _ K2) as (y & h & Hy & Hh & Ey). destruct (CV2 _ K3) as (x & w & Hx & Hw & Ex).
      set (k := idx3 (kh c) (kw c) (r / (ih c * iw c)) h w). set (q := x + ow c * y).
      assert (Hk : 0 <= k < patches_height c) by (apply idx3_range; assumption).
      assert (Hq : 0 <= q < patches_width c) by (unfold q, patches_width; nia).
      destruct (idx3_split (kh c) (kw c) (r / (ih c * iw c)) h w) as (S1 & S2 & S3); auto; [lia|].
      fold k in S1, S2, S3.
      assert (Q1 : q / ow c = y) by (unfold q; rewrite Z.mul_comm, Z.div_add, Z.div_small by lia; lia).
      assert (Q2 : q mod ow c = x) by (unfold q; rewrite Z.mul_comm, Z_mod_plus_full; apply Z.mod_small; lia).
      assert (EE : start_idx c hp wp k + offset_idx c wp q = padded_pos r).
      { rewrite raw_entry. unfold padded_pos, ch, row, col. rewrite S1, S2, S3, Q1, Q2, Ey, Ex. reflexivity. }
      split; [exists k, q; auto|].
      unfold padded_pos. rewrite (is_pad_spec G); [|lia|unfold hp; lia|unfold wp; lia].
      rewrite negb_involutive, !andb_true_iff, !Z.leb_le, !Z.ltb_lt. lia.
  Qed.

  (** Lists of ranks. *)
  Definition ranks (m : Z) : list Z := map (fun k => padded_pos (Z.of_nat k)) (seq 0 (Z.to_nat m)).

  Lemma NoDup_ranks (G : geometry) m : m <= n -> NoDup (ranks m).
  Proof.
    intros Hm. unfold ranks.
    assert (forall l : list nat, NoDup l -> (forall k, In k l -> Z.of_nat k < n) -> NoDup (map (fun k => padded_pos (Z.of_nat k)) l)).
    { induction l as [|a l IH]; intros ND Hl; cbn; constructor.
      - rewrite in_map_iff. intros (b & E & Hb). inversion ND; subst. apply H1.
        apply (padded_pos_inj G) in E; [apply Nat2Z.inj in E; subst; assumption| |].
        + split; [lia|]. apply Hl. right. exact Hb.
        + split; [lia|]. apply Hl. left. reflexivity.
      - inversion ND; subst. apply IH; [assumption|]. intros k Hk. apply Hl. right. exact Hk. }
    apply H; [apply seq_NoDup|]. intros k Hk. apply in_seq in Hk. lia.
  Qed.

  Lemma in_ranks v m : In v (ranks m) <-> exists r, 0 <= r < m /\ v = padded_pos r.
  Proof.
    unfold ranks. rewrite in_map_iff. split.
    - intros (k & <- & Hk). apply in_seq in Hk. exists (Z.of_nat k). split; [lia|reflexivity].
    - intros (r & Hr & ->). exists (Z.to_nat r). rewrite Z2Nat.id by lia. split; [reflexivity|]. apply in_seq. lia.
  Qed.

  Lemma zlen_ranks m : 0 <= m -> zlen (ranks m) = m.
  Proof. intros. unfold zlen, ranks. rewrite map_length, seq_length. lia. Qed.

  Lemma used_count (G : geometry) (CV : covers) : zlen (nodup Z.eq_dec used) = n.
  Proof.
    assert (Hn : 0 <= n) by (unfold n; pose proof G as []; nia).
    rewrite <- (zlen_ranks n Hn). unfold zlen. f_equal. apply Permutation_length.
    apply NoDup_Permutation; [apply NoDup_nodup|apply (NoDup_ranks G); lia|].
    intros v. rewrite nodup_In, (in_used G CV), in_ranks. reflexivity.
  Qed.

  Lemma used_rank (G : geometry) (CV : covers) r : 0 <= r < n -> distinct_below used (padded_pos r) = r.
  Proof.
    intros Hr. unfold distinct_below. transitivity (zlen (ranks r)); [|apply zlen_ranks; lia]. unfold zlen. f_equal. apply Permutation_length.
    apply NoDup_Permutation; [apply NoDup_filter; apply NoDup_nodup|apply (NoDup_ranks G); lia|].
    intros v. rewrite filter_In, nodup_In, (in_used G CV), in_ranks, Z.ltb_lt. split.
    - intros ((r' & Hr' & ->) & L). exists r'. split; [|reflexivity]. split; [lia|].
      destruct (Z_lt_ge_dec r' r) as [|Hge]; [assumption|].
      destruct (Z.eq_dec r' r) as [->|]; [lia|]. assert (padded_pos r < padded_pos r') by (apply (padded_pos_mono G); lia). lia.
    - intros (r' & Hr' & ->). split; [exists r'; split; [lia|reflexivity]|]. apply (padded_pos_mono G); lia.
  Qed.

  (** What an entry denotes: input element, or the padding zero. *)
  Definition denotes {V} (zero : V) (x : list V) (e : option Z) : V :=
    match e with None => zero | Some a => nthZ zero x a end.

  Lemma zlen_raw : 0 <= patches_height c -> 0 <= patches_width c -> zlen raw = patches_height c * patches_width c.
  Proof. intros. unfold raw, raw_idx, tab2. apply zlen_tab. nia. Qed.

  Lemma nthZ_raw k q : 0 <= k < patches_height c -> 0 <= q < patches_width c ->
    nthZ 0 raw (k * patches_width c + q) = idx3 hp wp (ch k) (row k q) (col k q).
  Proof.
    intros Hk Hq. replace (k * patches_width c + q) with (q + patches_width c * k) by ring.
    fold (at2 0 (patches_width c) raw k q). unfold raw, raw_idx. rewrite at2_tab2 by assumption. apply raw_entry.
  Qed.

  Lemma ppatches_ok (N : num) (x : list (T N)) (G : geometry) k q :
    (covers \/ (pr c = 0 /\ pl c = 0 /\ pb c = 0 /\ pt c = 0)) -> zlen x = n ->
    0 <= k < patches_height c -> 0 <= q < patches_width c ->
    exists e, rdl (ppatches c) (k * patches_width c + q) = Some e /\
      denotes (n0 N) x e = patch N c x k q /\ (forall a, e = Some a -> 0 <= a < n).
  Proof.
    intros Hcov Hx Hk Hq. pose proof G as [].
    destruct (entry_coords G k q Hk Hq) as (B1 & B2 & B3).
    assert (Hi : 0 <= k * patches_width c + q < patches_height c * patches_width c) by nia.
    assert (HL : zlen raw = patches_height c * patches_width c) by (apply zlen_raw; lia).
    assert (EP : patch N c x k q = zero_padded (ih c) (iw c) x (ch k) (row k q - pt c) (col k q - pl c)).
    { unfold patch, ch, row, col. f_equal; ring. }
    unfold ppatches.
    destruct ((pr c =? 0) && (pl c =? 0) && (pb c =? 0) && (pt c =? 0)) eqn:EN.
    - rewrite !andb_true_iff, !Z.eqb_eq in EN. destruct EN as (((E1 & E2) & E3) & E4).
      assert (Eh : hp = ih c) by (unfold hp; lia). assert (Ew : wp = iw c) by (unfold wp; lia).
      exists (Some (idx3 (ih c) (iw c) (ch k) (row k q) (col k q))). split; [|split].
      + rewrite <- Eh, <- Ew. fold raw. rewrite (rdl_nthZ None) by (rewrite zlen_map; lia).
        rewrite (nthZ_map Some 0 None) by lia. rewrite nthZ_raw by assumption. reflexivity.
      + rewrite EP, E2, E4, !Z.sub_0_r. cbn [denotes]. unfold zero_padded.
        rewrite <- Eh, <- Ew. destruct (Z.leb_spec 0 (row k q)); [|lia]. destruct (Z.ltb_spec (row k q) hp); [|lia].
        destruct (Z.leb_spec 0 (col k q)); [|lia]. destruct (Z.ltb_spec (col k q) wp); [|lia]. reflexivity.
      + intros a [= <-]. apply idx3_range; lia.
    - destruct Hcov as [CV|(E1 & E2 & E3 & E4)]; [|rewrite E1, E2, E3, E4 in EN; discriminate].
      fold hp wp. fold raw. fold used. fold n. rewrite (rdl_nthZ None) by (rewrite zlen_map; lia).
      rewrite (nthZ_map (fun v => if (if is_pad c v then zlen (nodup Z.eq_dec used) else distinct_below used v) =? n
          then None else Some (if is_pad c v then zlen (nodup Z.eq_dec used) else distinct_below used v)) 0 None) by lia.
      rewrite nthZ_raw by assumption.
      assert (HP : is_pad c (idx3 hp wp (ch k) (row k q) (col k q)) =
        negb ((pt c <=? row k q) && (row k q <? pt c + ih c) && (pl c <=? col k q) && (col k q <? pl c + iw c))).
      { apply (is_pad_spec G); lia. }
      rewrite HP. rewrite EP. unfold zero_padded.
      replace (0 <=? row k q - pt c) with (pt c <=? row k q) by (apply eq_true_iff_eq; rewrite !Z.leb_le; lia).
      replace (row k q - pt c <? ih c) with (row k q <? pt c + ih c) by (apply eq_true_iff_eq; rewrite !Z.ltb_lt; lia).
      replace (0 <=? col k q - pl c) with (pl c <=? col k q) by (apply eq_true_iff_eq; rewrite !Z.leb_le; lia).
      replace (col k q - pl c <? iw c) with (col k q <? pl c + iw c) by (apply eq_true_iff_eq; rewrite !Z.ltb_lt; lia).
      destruct ((pt c <=? row k q) && (row k q <? pt c + ih c) && (pl c <=? col k q) && (col k q <? pl c + iw c)) eqn:EI; cbn [negb].
      + rewrite !andb_true_iff, !Z.leb_le, !Z.ltb_lt in EI.
        set (r := idx3 (ih c) (iw c) (ch k) (row k q - pt c) (col k q - pl c)).
        assert (Hr : 0 <= r < n) by (apply idx3_range; lia).
        assert (ER : idx3 hp wp (ch k) (row k q) (col k q) = padded_pos r).
        { unfold r. rewrite (padded_pos_idx3 G) by lia. f_equal; ring. }
        rewrite ER, (used_rank G CV r Hr). destruct (Z.eqb_spec r n); [lia|].
        exists (Some r). split; [reflexivity|]. split; [reflexivity|]. intros a [= <-]. exact Hr.
      + rewrite (used_count G CV), Z.eqb_refl. exists None. split; [reflexivity|]. split; [reflexivity|]. discriminate.
  Qed.
  (** Every pointer of the table points inside the input, whatever the windows cover. *)
  Lemma used_inside (G : geometry) v : In v used -> exists r, 0 <= r < n /\ v = padded_pos r.
  Proof.
    unfold used. rewrite filter_In, in_raw by (unfold patches_width; pose proof G as []; nia).
    intros ((k & q & Hk & Hq & ->) & Hp). destruct (entry_coords G k q Hk Hq) as (B1 & B2 & B3).
    rewrite raw_entry in Hp |- *. rewrite (is_pad_spec G) in Hp by lia. rewrite negb_involutive in Hp.
    rewrite !andb_true_iff, !Z.leb_le, !Z.ltb_lt in Hp.
    exists (idx3 (ih c) (iw c) (ch k) (row k q - pt c) (col k q - pl c)). split.
    - apply idx3_range; lia.
    - rewrite (padded_pos_idx3 G) by lia. f_equal; ring.
  Qed.
  Lemma used_at_most (G : geometry) : zlen (nodup Z.eq_dec used) <= n.
  Proof.
    assert (Hn : 0 <= n) by (unfold n; pose proof G as []; nia).
    rewrite <- (zlen_ranks n Hn). unfold zlen. apply inj_le. apply NoDup_incl_length; [apply NoDup_nodup|].
    intros v Hv. apply nodup_In in Hv. apply (used_inside G) in Hv. apply in_ranks. exact Hv.
  Qed.
  Lemma filter_shorter (l : list Z) v : In v l -> (length (filter (fun u => u <? v)%Z l) < length l)%nat.
  Proof.
    assert (LE : forall l, (length (filter (fun u => u <? v)%Z l) <= length l)%nat).
    { induction l0 as [|a l0 IH]; cbn; [lia|]. destruct (a <? v); cbn; lia. }
    induction l as [|a l IH]; intros Hv; [destruct Hv|]. cbn [filter length]. destruct Hv as [->|Hv].
    - rewrite Z.ltb_irrefl. pose proof (LE l). lia.
    - specialize (IH Hv). destruct (a <? v); cbn [length]; lia.
  Qed.
  Lemma ppatches_inside (G : geometry) k q : 0 <= k < patches_height c -> 0 <= q < patches_width c ->
    exists e, rdl (ppatches c) (k * patches_width c + q) = Some e /\ (forall a, e = Some a -> 0 <= a < n).
  Proof.
    intros Hk Hq. pose proof G as [].
    destruct (entry_coords G k q Hk Hq) as (B1 & B2 & B3).
    assert (Hi : 0 <= k * patches_width c + q < patches_height c * patches_width c) by nia.
    assert (HL : zlen raw = patches_height c * patches_width c) by (apply zlen_raw; lia).
    unfold ppatches.
    destruct ((pr c =? 0) && (pl c =? 0) && (pb c =? 0) && (pt c =? 0)) eqn:EN.
    - rewrite !andb_true_iff, !Z.eqb_eq in EN. destruct EN as (((E1 & E2) & E3) & E4).
      assert (Eh : hp = ih c) by (unfold hp; lia). assert (Ew : wp = iw c) by (unfold wp; lia).
      exists (Some (idx3 (ih c) (iw c) (ch k) (row k q) (col k q))). split.
      + rewrite <- Eh, <- Ew. fold raw. rewrite (rdl_nthZ None) by (rewrite zlen_map; lia).
        rewrite (nthZ_map Some 0 None) by lia. rewrite nthZ_raw by assumption. reflexivity.
      + intros a [= <-]. apply idx3_range; lia.
    - fold hp wp. fold raw. fold used. fold n. rewrite (rdl_nthZ None) by (rewrite zlen_map; lia).
      rewrite (nthZ_map (fun v => if (if is_pad c v then zlen (nodup Z.eq_dec used) else distinct_below used v) =? n
          then None else Some (if is_pad c v then zlen (nodup Z.eq_dec used) else distinct_below used v)) 0 None) by lia.
      rewrite nthZ_raw by assumption. set (v := idx3 hp wp (ch k) (row k q) (col k q)).
      eexists. split; [reflexivity|]. intros a Ea.
      pose proof (used_at_most G) as UM. pose proof (zlen_nonneg (nodup Z.eq_dec used)) as UN.
      destruct (is_pad c v) eqn:EP.
      + destruct (Z.eqb_spec (zlen (nodup Z.eq_dec used)) n); [discriminate|]. injection Ea as <-. lia.
      + assert (IV : In v used).
        { unfold used. apply filter_In. rewrite EP. split; [|reflexivity].
          apply in_raw; [lia|]. exists k, q. split; [exact Hk|]. split; [exact Hq|]. symmetry. apply raw_entry. }
        apply (nodup_In Z.eq_dec) in IV. apply filter_shorter in IV.
        assert (DB : 0 <= distinct_below used v < zlen (nodup Z.eq_dec used)) by (unfold distinct_below, zlen; lia).
        destruct (Z.eqb_spec (distinct_below used v) n); [discriminate|]. injection Ea as <-. lia.
  Qed.
End Indirect.

Section IndirectLayer.
  Context (N : num).
  Notation V := (T N).
  Notation z := (n0 N).

  Lemma zlen_ppatches c : 0 <= patches_height c -> 0 <= patches_width c ->
    zlen (ppatches c) = patches_height c * patches_width c.
  Proof.
    intros. unfold ppatches. destruct (_ && _); rewrite zlen_map; unfold raw_idx, tab2; apply zlen_tab; nia.
  Qed.

  Lemma indirect_nn_ok (MC : mul_comm_law N) src out c w b act (x : list V) :
    out <> Temp -> src <> Temp -> conv_dims N c w b x -> geometry c -> dilation c = 1 ->
    (covers c \/ (pr c = 0 /\ pl c = 0 /\ pb c = 0 /\ pt c = 0)) ->
    layer_ok (indirect_nn_c N src out c w b act) [(src, x)] out (nf c * oh c * ow c) (nf c * oh c * ow c)
      (convolution N c w b act x).
  Proof.
    intros Ho Hs D G Hd Hcov m Hm Ht HL. apply holds_src1 in Hm.
    pose proof D as [D1 D2 D3 D4 D5 D6 D7 D8 D9 D10 D11].
    assert (HPW : 0 <= patches_width c) by (unfold patches_width; nia).
    assert (HPH : 0 <= patches_height c) by (unfold patches_height; nia).
    assert (ESz : nf c * patches_width c = nf c * oh c * ow c) by (unfold patches_width; ring).
    unfold indirect_nn_c.
    destruct (fill_spec (nf c * oh c * ow c) (fun k m => wr m Temp k z) (fun _ => z) Temp m) as (m1 & E1 & O1 & Z1 & _);
      [nia|exact Ht|intros; reflexivity|].
    rewrite E1. cbn [bind].
    set (bm := tab2 (patches_height c) (patches_width c) (patch N c x)) in *.
    destruct (gemm_nn_ok N (rd_pointer N (ppatches c) src) (nf c) (patches_width c) (patches_height c) w b act bm m1)
      as (m2 & E2 & O2 & H2); auto.
    { rewrite D10. unfold patches_height. ring. }
    { unfold bm, tab2. apply zlen_tab. nia. }
    { intros m' q O' Hq. unfold rd_pointer.
      destruct (tab2_range (patches_height c) (patches_width c) q) as (_ & Hw0 & Q1 & Q2); auto.
      destruct (ppatches_ok c N x G (q / patches_width c) (q mod patches_width c)) as (e & Ee & Ed & Ea); auto.
      assert (Eq : q / patches_width c * patches_width c + q mod patches_width c = q)
        by (pose proof (Z.div_mod q (patches_width c) ltac:(lia)); lia).
      rewrite Eq in Ee. rewrite Ee. cbn [bind].
      assert (EV : nthZ z bm q = patch N c x (q / patches_width c) (q mod patches_width c)).
      { unfold bm, tab2. rewrite nthZ_tab by lia. reflexivity. }
      rewrite EV, <- Ed. destruct e as [a|]; cbn [denotes]; [|reflexivity].
      apply holds_rd_nthZ; [|rewrite D9; apply Ea; reflexivity].
      eapply holds_eq; [|exact Hm]. destruct O' as [_ O'], O1 as [_ O1]. rewrite O', O1; auto. }
    { intros q Hq. apply Z1. lia. }
    rewrite E2. cbn [bind].
    unfold bm in H2. rewrite (gemm_patches N MC) in H2 by assumption.
    destruct (copy_from_temp_spec (nf c * oh c * ow c) (fun v => v) out m2 (convolution N c w b act x)) as (m3 & E3 & O3 & H3); auto.
    { nia. } { apply zlen_convolution. exact D. }
    { rewrite (only_zlen m1 m2 Temp out O2), (only_zlen m m1 Temp out O1). exact HL. }
    exists m3. rewrite map_id in H3. split; [exact E3|]. split; [exact H3|]. split.
    - intros bb. rewrite (only_zlen m2 m3 out bb O3), (only_zlen m1 m2 Temp bb O2), (only_zlen m m1 Temp bb O1). reflexivity.
    - intros bb Hb1 Hb2. destruct O3 as [_ O3], O2 as [_ O2], O1 as [_ O1]. rewrite O3, O2, O1; auto.
  Qed.

  (** The layer stays inside its arrays, whatever the windows cover and whatever the arithmetic. *)
  Lemma indirect_nn_inside src out c w b act (m : mem V) :
    out <> Temp -> src <> Temp -> 0 <= nf c -> zlen w = nf c * ic c * kh c * kw c -> zlen b = nf c -> geometry c ->
    ic c * ih c * iw c <= zlen (m src) -> nf c * oh c * ow c <= zlen (m Temp) -> nf c * oh c * ow c <= zlen (m out) ->
    exists m', indirect_nn_c N src out c w b act m = Some m' /\ forall bb, zlen (m' bb) = zlen (m bb).
  Proof.
    intros Ho Hs Hnf Hw Hb G Hm Ht HL. pose proof G as [].
    assert (HPW : 0 <= patches_width c) by (unfold patches_width; nia).
    assert (HPH : 0 <= patches_height c) by (unfold patches_height; nia).
    assert (ESz : nf c * patches_width c = nf c * oh c * ow c) by (unfold patches_width; ring).
    unfold indirect_nn_c.
    destruct (fill_spec (nf c * oh c * ow c) (fun k m => wr m Temp k z) (fun _ => z) Temp m) as (m1 & E1 & O1 & Z1 & _);
      [nia|exact Ht|intros; reflexivity|].
    rewrite E1. cbn [bind].
    set (bm := tab (patches_height c * patches_width c)
                 (fun q => match rd_pointer N (ppatches c) src m q with Some v => v | None => z end)).
    destruct (gemm_nn_ok N (rd_pointer N (ppatches c) src) (nf c) (patches_width c) (patches_height c) w b act bm m1)
      as (m2 & E2 & O2 & H2); auto.
    { rewrite Hw. unfold patches_height. ring. }
    { unfold bm. apply zlen_tab. nia. }
    { intros m' q O' Hq. unfold bm. rewrite nthZ_tab by exact Hq. unfold rd_pointer.
      destruct (tab2_range (patches_height c) (patches_width c) q) as (_ & Hw0 & Q1 & Q2); auto.
      destruct (ppatches_inside c G (q / patches_width c) (q mod patches_width c)) as (e & Ee & Ea); auto.
      assert (Eq : q / patches_width c * patches_width c + q mod patches_width c = q)
        by (pose proof (Z.div_mod q (patches_width c) ltac:(lia)); lia).
      rewrite Eq in Ee. rewrite Ee. cbn [bind]. destruct e as [a|]; [|reflexivity].
      assert (EM : m' src = m src) by (destruct O' as [_ O'], O1 as [_ O1]; rewrite O', O1; auto).
      unfold rd. rewrite EM. specialize (Ea a eq_refl).
      destruct (rdl_some (m src) a ltac:(lia)) as (v & ->). reflexivity. }
    { intros q Hq. apply Z1. lia. }
    rewrite E2. cbn [bind].
    match type of H2 with holds _ _ ?l => set (res := l) in H2 end.
    destruct (copy_from_temp_spec (nf c * oh c * ow c) (fun v => v) out m2 res) as (m3 & E3 & O3 & H3); auto.
    { nia. } { unfold res, tab2. rewrite zlen_tab by nia. exact ESz. }
    { rewrite (only_zlen m1 m2 Temp out O2), (only_zlen m m1 Temp out O1). exact HL. }
    exists m3. split; [exact E3|].
    intros bb. rewrite (only_zlen m2 m3 out bb O3), (only_zlen m1 m2 Temp bb O2), (only_zlen m m1 Temp bb O1). reflexivity.
  Qed.

  (** Windows that overlap or touch cover the image. *)
  Lemma covers_dim size before after kernel s o i : 0 < s -> s <= kernel -> 0 <= before -> 0 < o ->
    o = conv_output_size size before after kernel s 1 -> (o - 1) * s + kernel >= size + before -> 0 <= i < size ->
    exists y h, 0 <= y < o /\ 0 <= h < kernel /\ y * s + h = i + before.
  Proof.
    intros Hs Hk Hb Ho Eo Hc Hi.
    pose proof (Z.div_mod (i + before) s ltac:(lia)) as DM. pose proof (Z.mod_pos_bound (i + before) s Hs) as MB.
    destruct (Z_lt_ge_dec ((i + before) / s) o) as [L|L].
    - exists ((i + before) / s), ((i + before) mod s). split; [split; [apply Z.div_pos; lia|lia]|]. split; lia.
    - exists (o - 1), (i + before - (o - 1) * s). split; [lia|]. split; [|lia]. split; [nia|lia].
  Qed.
End IndirectLayer.
