(** * Flat row-major tensors of shape (channels, height, width).
    The Python code keeps tensors as numpy arrays of shape (C,H,W) (or
    (1,C,H,W)); the generated C code keeps them as flat arrays in row-major
    order (numpy's flatten()).  Both are modelled by a list of length C*H*W. *)
From Coq Require Import ZArith List Lia Bool.
Import ListNotations.
Open Scope Z_scope.
From Verif Require Import CMem.

Definition tab3 {A} (C H W : Z) (f : Z -> Z -> Z -> A) : list A :=
  tab (C * H * W) (fun k => f (k / (H * W)) ((k / W) mod H) (k mod W)).

Definition tab2 {A} (H W : Z) (f : Z -> Z -> A) : list A :=
  tab (H * W) (fun k => f (k / W) (k mod W)).

Definition idx3 (H W c h w : Z) : Z := w + W * (h + H * c).

Definition at3 {A} (d : A) (H W : Z) (l : list A) (c h w : Z) : A := nthZ d l (idx3 H W c h w).
Definition at2 {A} (d : A) (W : Z) (l : list A) (h w : Z) : A := nthZ d l (w + W * h).

Lemma idx3_range C H W c h w : 0 <= c < C -> 0 <= h < H -> 0 <= w < W ->
  0 <= idx3 H W c h w < C * H * W.
Proof.
  intros Hc Hh Hw. unfold idx3.
  assert (0 <= h + H * c < C * H) by nia. nia.
Qed.

Lemma idx3_split H W c h w : 0 <= c -> 0 <= h < H -> 0 <= w < W ->
  idx3 H W c h w / (H * W) = c /\ (idx3 H W c h w / W) mod H = h /\ idx3 H W c h w mod W = w.
Proof.
  intros Hc Hh Hw. unfold idx3.
  assert (E1 : (w + W * (h + H * c)) / W = h + H * c).
  { rewrite (Z.mul_comm W), Z.div_add by lia. rewrite Z.div_small by lia. lia. }
  assert (E2 : (h + H * c) / H = c).
  { rewrite (Z.mul_comm H), Z.div_add by lia. rewrite Z.div_small by lia. lia. }
  split; [|split].
  - rewrite (Z.mul_comm H W). rewrite <- Z.div_div by lia. rewrite E1. exact E2.
  - rewrite E1. rewrite (Z.mul_comm H), Z.mod_add by lia. apply Z.mod_small. lia.
  - rewrite (Z.mul_comm W), Z.mod_add by lia. apply Z.mod_small. lia.
Qed.

Lemma idx3_join H W k : 0 <= k -> 0 < H -> 0 < W ->
  idx3 H W (k / (H * W)) ((k / W) mod H) (k mod W) = k.
Proof.
  intros Hk HH HW. unfold idx3.
  rewrite (Z.mul_comm H W). rewrite <- Z.div_div by lia.
  pose proof (Z.div_mod (k / W) H ltac:(lia)). pose proof (Z.div_mod k W ltac:(lia)). nia.
Qed.

Lemma split3_range C H W k : 0 <= k < C * H * W -> 0 <= C -> 0 <= H -> 0 <= W ->
  0 < C /\ 0 < H /\ 0 < W /\
  0 <= k / (H * W) < C /\ 0 <= (k / W) mod H < H /\ 0 <= k mod W < W.
Proof.
  intros Hk HC HH HW. assert (0 < C * H * W) by lia. assert (0 < H) by nia. assert (0 < W) by nia.
  assert (0 < C) by nia. split; [assumption|]. split; [assumption|]. split; [assumption|].
  split; [|split; apply Z.mod_pos_bound; assumption].
  split; [apply Z.div_pos; nia|]. apply Z.div_lt_upper_bound; nia.
Qed.

Lemma zlen_tab3 {A} C H W (f : Z -> Z -> Z -> A) : 0 <= C -> 0 <= H -> 0 <= W ->
  zlen (tab3 C H W f) = C * H * W.
Proof. intros. apply zlen_tab. nia. Qed.

Lemma at3_tab3 {A} (d : A) C H W f c h w : 0 <= c < C -> 0 <= h < H -> 0 <= w < W ->
  at3 d H W (tab3 C H W f) c h w = f c h w.
Proof.
  intros Hc Hh Hw. unfold at3, tab3. rewrite nthZ_tab by (apply idx3_range; lia).
  destruct (idx3_split H W c h w) as (-> & -> & ->); auto; lia.
Qed.

Lemma tab3_ext {A} C H W (f g : Z -> Z -> Z -> A) : 0 <= C -> 0 <= H -> 0 <= W ->
  (forall c h w, 0 <= c < C -> 0 <= h < H -> 0 <= w < W -> f c h w = g c h w) ->
  tab3 C H W f = tab3 C H W g.
Proof.
  intros HC HH HW E. apply tab_ext. intros k Hk.
  destruct (split3_range C H W k) as (_ & _ & _ & H1 & H2 & H3); auto.
Qed.

(** Every list of the right length is the tensor of its elements. *)
Lemma tab3_at3 {A} (d : A) C H W l : 0 <= C -> 0 <= H -> 0 <= W -> zlen l = C * H * W ->
  tab3 C H W (at3 d H W l) = l.
Proof.
  intros HC HH HW E. rewrite (tab_nthZ d l) at 2. rewrite E. apply tab_ext. intros k Hk.
  destruct (split3_range C H W k) as (P1 & P2 & P3 & _); auto.
  unfold at3. rewrite idx3_join by lia. reflexivity.
Qed.

Lemma tensor_ext {A} (d : A) C H W l r : 0 <= C -> 0 <= H -> 0 <= W ->
  zlen l = C * H * W -> zlen r = C * H * W ->
  (forall c h w, 0 <= c < C -> 0 <= h < H -> 0 <= w < W -> at3 d H W l c h w = at3 d H W r c h w) ->
  l = r.
Proof.
  intros HC HH HW El Er E. rewrite <- (tab3_at3 d C H W l), <- (tab3_at3 d C H W r) by assumption.
  apply tab3_ext; assumption.
Qed.

Lemma tab3_flat {A} C H W (f : Z -> A) : 0 <= C -> 0 <= H -> 0 <= W ->
  tab3 C H W (fun c h w => f (idx3 H W c h w)) = tab (C * H * W) f.
Proof.
  intros. apply tab_ext. intros k Hk.
  destruct (split3_range C H W k) as (P1 & P2 & P3 & _); auto. rewrite idx3_join by lia. reflexivity.
Qed.

Lemma map_tab {A B} (g : A -> B) n f : map g (tab n f) = tab n (fun k => g (f k)).
Proof. unfold tab. rewrite map_map. reflexivity. Qed.

Lemma map_tab3 {A B} (g : A -> B) C H W f : map g (tab3 C H W f) = tab3 C H W (fun c h w => g (f c h w)).
Proof. apply map_tab. Qed.

Lemma zlen_map {A B} (g : A -> B) l : zlen (map g l) = zlen l.
Proof. unfold zlen. rewrite map_length. reflexivity. Qed.

Lemma nthZ_map {A B} (g : A -> B) da db l k : 0 <= k < zlen l -> nthZ db (map g l) k = g (nthZ da l k).
Proof.
  intros Hk. unfold nthZ. destruct (rdl_some l k Hk) as [v E]. rewrite E.
  unfold rdl in *. destruct (Z.ltb_spec k 0); [discriminate|]. rewrite nth_error_map, E. reflexivity.
Qed.

Lemma tab2_range H W k : 0 <= k < H * W -> 0 <= H -> 0 <= W ->
  0 < H /\ 0 < W /\ 0 <= k / W < H /\ 0 <= k mod W < W.
Proof.
  intros Hk HH HW. assert (0 < W) by nia. assert (0 < H) by nia. split; [assumption|]. split; [assumption|].
  split; [|apply Z.mod_pos_bound; lia]. split; [apply Z.div_pos; lia|]. apply Z.div_lt_upper_bound; nia.
Qed.

Lemma at2_tab2 {A} (d : A) H W f h w : 0 <= h < H -> 0 <= w < W -> at2 d W (tab2 H W f) h w = f h w.
Proof.
  intros Hh Hw. unfold at2, tab2. rewrite nthZ_tab by nia. f_equal.
  - rewrite Z.mul_comm, Z.div_add by lia. rewrite Z.div_small by lia. lia.
  - rewrite Z.mul_comm, Z.mod_add by lia. apply Z.mod_small. lia.
Qed.

Lemma tab2_ext {A} H W (f g : Z -> Z -> A) : 0 <= H -> 0 <= W ->
  (forall h w, 0 <= h < H -> 0 <= w < W -> f h w = g h w) -> tab2 H W f = tab2 H W g.
Proof.
  intros HH HW E. apply tab_ext. intros k Hk. destruct (tab2_range H W k) as (_ & _ & H1 & H2); auto.
Qed.

(** ** Loop nests that fill an array in row-major order *)
Section Fill.
  Context {V : Type}.

  Lemma fill3 C H W (body : Z -> Z -> Z -> mem V -> option (mem V)) (val : Z -> Z -> Z -> V) b m :
    0 <= C -> 0 <= H -> 0 <= W -> C * H * W <= zlen (m b) ->
    (forall f i j m', 0 <= f < C -> 0 <= i < H -> 0 <= j < W -> only m m' b ->
        (forall k, 0 <= k < idx3 H W f i j -> rd m' b k = rdl (tab3 C H W val) k) ->
        (forall k, idx3 H W f i j <= k -> rd m' b k = rd m b k) ->
        body f i j m' = wr m' b (idx3 H W f i j) (val f i j)) ->
    exists m', for_ C (fun f => for_ H (fun i => for_ W (body f i))) m = Some m' /\
      only m m' b /\ holds m' b (tab3 C H W val).
  Proof.
    intros HC HH HW HL HB. rewrite for_nest3 by assumption.
    apply fill_holds; [nia|exact HL|].
    intros k m' Hk O P1 P2. destruct (split3_range C H W k) as (Q1 & Q2 & Q3 & H1 & H2 & H3); auto.
    rewrite HB; try assumption.
    - rewrite idx3_join by lia. reflexivity.
    - rewrite idx3_join by lia. intros i Hi. rewrite P1 by lia. unfold tab3. rewrite rdl_tab by lia. reflexivity.
    - rewrite idx3_join by lia. exact P2.
  Qed.

  Lemma fill2 H W (body : Z -> Z -> mem V -> option (mem V)) (val : Z -> Z -> V) b m :
    0 <= H -> 0 <= W -> H * W <= zlen (m b) ->
    (forall i j m', 0 <= i < H -> 0 <= j < W -> only m m' b ->
        body i j m' = wr m' b (j + W * i) (val i j)) ->
    exists m', for_ H (fun i => for_ W (body i)) m = Some m' /\
      only m m' b /\ holds m' b (tab2 H W val).
  Proof.
    intros HH HW HL HB. rewrite for_nest by assumption.
    apply fill_holds; [nia|exact HL|].
    intros k m' Hk O P1 P2. destruct (tab2_range H W k) as (Q2 & Q3 & H2 & H3); auto.
    rewrite HB; try assumption. f_equal. pose proof (Z.div_mod k W ltac:(lia)). lia.
  Qed.

  (** Same, for code that keeps its own counter [position++] instead of
      computing the flat index. *)
  Lemma holds_other m m' b b' (l : list V) : only m m' b -> b' <> b -> holds m b' l -> holds m' b' l.
  Proof. intros [_ O] N Hh. eapply holds_eq; [apply O; exact N|exact Hh]. Qed.
End Fill.

(** ** Loops that write at permuted positions *)
Section Scatter.
  Context {V : Type}.
  Lemma scatter n (body : Z -> mem V -> option (mem V)) (pos : Z -> Z) (val : Z -> V) b m :
    0 <= n ->
    (forall k, 0 <= k < n -> 0 <= pos k < zlen (m b)) ->
    (forall k k', 0 <= k < n -> 0 <= k' < n -> pos k = pos k' -> k = k') ->
    (forall k m', 0 <= k < n -> only m m' b -> body k m' = wr m' b (pos k) (val k)) ->
    exists m', for_ n body m = Some m' /\ only m m' b /\
      (forall k, 0 <= k < n -> rd m' b (pos k) = Some (val k)).
  Proof.
    intros Hn Hr Hinj HB.
    destruct (for_inv (fun k m' => only m m' b /\
        (forall i, 0 <= i < k -> rd m' b (pos i) = Some (val i))) n body m) as (m' & E & P).
    - exact Hn.
    - split; [apply only_refl|]. intros; lia.
    - intros k m1 Hk ((L & O) & P1).
      rewrite HB; [|lia|split; assumption].
      destruct (wr_spec m1 b (pos k) (val k)) as (m2 & E2 & L2 & R2 & R3 & O2); [specialize (Hr k Hk); lia|].
      exists m2. split; [exact E2|]. split; [split; [lia|]|].
      + intros b' Hb'. rewrite O2 by exact Hb'. auto.
      + intros i Hi. destruct (Z.eq_dec i k) as [->|Hik]; [exact R2|].
        rewrite R3; [apply P1; lia|]. intros HE. apply Hik. apply Hinj; lia.
    - exists m'. tauto.
  Qed.

  (** Three nested loops over (f,i,j) writing at a position given by a tensor
      index of another shape (C',H',W') through a bijection. *)
  Lemma scatter3 C H W (body : Z -> Z -> Z -> mem V -> option (mem V)) (pos : Z -> Z -> Z -> Z)
      (val : Z -> V) b m :
    0 <= C -> 0 <= H -> 0 <= W -> C * H * W <= zlen (m b) ->
    (forall f i j, 0 <= f < C -> 0 <= i < H -> 0 <= j < W -> 0 <= pos f i j < C * H * W) ->
    (forall p, 0 <= p < C * H * W -> exists f i j, 0 <= f < C /\ 0 <= i < H /\ 0 <= j < W /\ pos f i j = p) ->
    (forall f i j f' i' j', 0 <= f < C -> 0 <= i < H -> 0 <= j < W ->
       0 <= f' < C -> 0 <= i' < H -> 0 <= j' < W -> pos f i j = pos f' i' j' -> f = f' /\ i = i' /\ j = j') ->
    (forall f i j m', 0 <= f < C -> 0 <= i < H -> 0 <= j < W -> only m m' b ->
        body f i j m' = wr m' b (pos f i j) (val (pos f i j))) ->
    exists m', for_ C (fun f => for_ H (fun i => for_ W (body f i))) m = Some m' /\
      only m m' b /\ holds m' b (tab (C * H * W) val).
  Proof.
    intros HC HH HW HL Hr Hs Hi HB. rewrite for_nest3 by assumption.
    set (P := fun k => pos (k / (H * W)) ((k / W) mod H) (k mod W)).
    destruct (scatter (C * H * W) (fun k => body (k / (H * W)) ((k / W) mod H) (k mod W)) P (fun k => val (P k)) b m)
      as (m' & E & O & R).
    - nia.
    - intros k Hk. destruct (split3_range C H W k) as (Q1 & Q2 & Q3 & H1 & H2 & H3); auto.
      unfold P. specialize (Hr (k / (H * W)) ((k / W) mod H) (k mod W) H1 H2 H3). lia.
    - intros k k' Hk Hk' HE. destruct (split3_range C H W k) as (Q1 & Q2 & Q3 & H1 & H2 & H3); auto.
      destruct (split3_range C H W k') as (_ & _ & _ & H1' & H2' & H3'); auto.
      destruct (Hi _ _ _ _ _ _ H1 H2 H3 H1' H2' H3' HE) as (E1 & E2 & E3).
      rewrite <- (idx3_join H W k), <- (idx3_join H W k') by lia. congruence.
    - intros k m' Hk O. destruct (split3_range C H W k) as (Q1 & Q2 & Q3 & H1 & H2 & H3); auto.
      apply HB; assumption.
    - exists m'. split; [exact E|]. split; [exact O|]. apply holds_intro.
      + rewrite zlen_tab by nia. rewrite (only_zlen m m' b b O). exact HL.
      + intros p Hp. rewrite zlen_tab in Hp by nia. rewrite rdl_tab by lia.
        destruct (Hs p Hp) as (f & i & j & Hf & Hi' & Hj & <-).
        specialize (R (idx3 H W f i j) ltac:(apply idx3_range; assumption)). unfold P in R.
        destruct (idx3_split H W f i j) as (E1 & E2 & E3); try lia. rewrite E1, E2, E3 in R. exact R.
  Qed.
End Scatter.

(** ** The common shape of most templates: compute into tensor_temp, then copy *)
Section ViaTemp.
  Context {V : Type}.
  Definition via_temp (compute : mem V -> option (mem V)) (size : Z) (act : V -> V) (out : bname)
      (m : mem V) : option (mem V) :=
    m1 <- compute m ;; copy_from_temp size act out m1.

  Lemma via_temp_ok compute srcs out size act l :
    out <> Temp -> zlen l = size ->
    (forall m, Forall (fun s => holds m (fst s) (snd s)) srcs -> size <= zlen (m Temp) ->
       exists m1, compute m = Some m1 /\ only m m1 Temp /\ holds m1 Temp l) ->
    layer_ok (via_temp compute size act out) srcs out size size (map act l).
  Proof.
    intros Hne Hl HC m Hs Ht Ho. destruct (HC m Hs Ht) as (m1 & E1 & O1 & H1).
    unfold via_temp. rewrite E1. cbn [bind].
    destruct (copy_from_temp_spec size act out m1 l) as (m2 & E2 & O2 & H2); auto.
    - pose proof (zlen_nonneg l). lia.
    - rewrite (only_zlen m m1 Temp out O1). exact Ho.
    - exists m2. split; [exact E2|]. split; [exact H2|]. split.
      + intros b. rewrite (only_zlen m1 m2 out b O2). apply (only_zlen m m1 Temp b O1).
      + intros b Hb1 Hb2. destruct O2 as [_ O2]. destruct O1 as [_ O1]. rewrite O2, O1; auto.
  Qed.
End ViaTemp.

Lemma rd_at3 {V} (d : V) (m : mem V) b x C H W c h w k :
  holds m b x -> zlen x = C * H * W -> 0 <= c < C -> 0 <= h < H -> 0 <= w < W ->
  k = idx3 H W c h w -> rd m b k = Some (at3 d H W x c h w).
Proof.
  intros Hh Hx Hc Hh' Hw ->. unfold at3. apply holds_rd_nthZ; [exact Hh|]. rewrite Hx. apply idx3_range; assumption.
Qed.

Lemma rdl_at3 {V} (d : V) x C H W c h w k :
  zlen x = C * H * W -> 0 <= c < C -> 0 <= h < H -> 0 <= w < W ->
  k = idx3 H W c h w -> rdl x k = Some (at3 d H W x c h w).
Proof.
  intros Hx Hc Hh' Hw ->. unfold at3. apply rdl_nthZ. rewrite Hx. apply idx3_range; assumption.
Qed.

Lemma holds_src1 {V} (m : mem V) b x : Forall (fun s => holds m (fst s) (snd s)) [(b, x)] <-> holds m b x.
Proof. split; [intros H; inversion H; assumption | intros H; constructor; [exact H|constructor]]. Qed.

(** ** Bodies that may write their cell several times *)
Section Stores.
  Context {V : Type}.
  (** [m'] is [m] with cell [k] of array [b] set to [v]. *)
  Definition stores (m m' : mem V) (b : bname) (k : Z) (v : V) : Prop :=
    only m m' b /\ rd m' b k = Some v /\ forall i, i <> k -> rd m' b i = rd m b i.

  Lemma wr_stores m b k v : 0 <= k < zlen (m b) -> exists m', wr m b k v = Some m' /\ stores m m' b k v.
  Proof.
    intros H. destruct (wr_spec m b k v H) as (m' & E & L & R1 & R2 & O). exists m'.
    split; [exact E|]. split; [split; assumption|]. split; assumption.
  Qed.

  Lemma stores_trans m m1 m2 b k u v : stores m m1 b k u -> stores m1 m2 b k v -> stores m m2 b k v.
  Proof.
    intros ((L1 & O1) & R1 & S1) ((L2 & O2) & R2 & S2). split; [split; [lia|]|split; [exact R2|]].
    - intros b' Hb. rewrite O2, O1; auto.
    - intros i Hi. rewrite S2, S1; auto.
  Qed.

  Lemma fill_stores_aux {S} (getm : S -> mem V) (extra : Z -> S -> Prop) n
      (body : Z -> S -> option S) (val : Z -> V) b s :
    0 <= n -> n <= zlen (getm s b) -> extra 0 s ->
    (forall k s', 0 <= k < n -> only (getm s) (getm s') b -> extra k s' ->
        (forall i, 0 <= i < k -> rd (getm s') b i = Some (val i)) ->
        (forall i, k <= i -> rd (getm s') b i = rd (getm s) b i) ->
        exists s2, body k s' = Some s2 /\ stores (getm s') (getm s2) b k (val k) /\ extra (k + 1) s2) ->
    exists s', for_ n body s = Some s' /\ only (getm s) (getm s') b /\ holds (getm s') b (tab n val) /\ extra n s'.
  Proof.
    intros Hn HL He HB.
    destruct (for_inv (fun k s' => only (getm s) (getm s') b /\ extra k s' /\
        (forall i, 0 <= i < k -> rd (getm s') b i = Some (val i)) /\
        (forall i, k <= i -> rd (getm s') b i = rd (getm s) b i)) n body s) as (s' & E & P).
    - exact Hn.
    - split; [apply only_refl|]. split; [exact He|]. split; intros; [lia|reflexivity].
    - intros k s1 Hk (O & Ex & P1 & P2).
      destruct (HB k s1 Hk O Ex P1 P2) as (s2 & E2 & ((L2 & O2) & R2 & S2) & Ex2).
      exists s2. split; [exact E2|]. destruct O as [L O]. split; [split; [lia|]|].
      + intros b' Hb'. rewrite O2 by exact Hb'. auto.
      + split; [exact Ex2|]. split.
        * intros i Hi. destruct (Z.eq_dec i k) as [->|Hik]; [exact R2|]. rewrite S2 by lia. apply P1. lia.
        * intros i Hi. rewrite S2 by lia. apply P2. lia.
    - destruct P as (O & Ex & P1 & P2). exists s'. split; [exact E|]. split; [exact O|]. split; [|exact Ex].
      apply holds_intro.
      + rewrite zlen_tab by lia. destruct O as [O _]. lia.
      + intros k Hk. rewrite zlen_tab in Hk by lia. rewrite rdl_tab by lia. apply P1. lia.
  Qed.

  Lemma fill3_stores C H W (body : Z -> Z -> Z -> mem V -> option (mem V)) (val : Z -> Z -> Z -> V) b m :
    0 <= C -> 0 <= H -> 0 <= W -> C * H * W <= zlen (m b) ->
    (forall f i j m', 0 <= f < C -> 0 <= i < H -> 0 <= j < W -> only m m' b ->
        exists m2, body f i j m' = Some m2 /\ stores m' m2 b (idx3 H W f i j) (val f i j)) ->
    exists m', for_ C (fun f => for_ H (fun i => for_ W (body f i))) m = Some m' /\
      only m m' b /\ holds m' b (tab3 C H W val).
  Proof.
    intros HC HH HW HL HB. rewrite for_nest3 by assumption.
    destruct (fill_stores_aux (fun m => m) (fun _ _ => True) (C * H * W)
      (fun k => body (k / (H * W)) ((k / W) mod H) (k mod W))
      (fun k => val (k / (H * W)) ((k / W) mod H) (k mod W)) b m) as (m' & E & O & Hh & _); [nia|exact HL|exact I| |eauto].
    intros k m' Hk O _ _ _. destruct (split3_range C H W k) as (Q1 & Q2 & Q3 & H1 & H2 & H3); auto.
    destruct (HB _ _ _ m' H1 H2 H3 O) as (m2 & E2 & S2). rewrite idx3_join in S2 by lia. eauto.
  Qed.

  (** The same with a running counter in the state. *)
  Lemma fill3_counter C H W (body : Z -> Z -> Z -> mem V * Z -> option (mem V * Z)) (val : Z -> Z -> Z -> V) b m :
    0 <= C -> 0 <= H -> 0 <= W -> C * H * W <= zlen (m b) ->
    (forall f i j m', 0 <= f < C -> 0 <= i < H -> 0 <= j < W -> only m m' b ->
        exists m2, body f i j (m', idx3 H W f i j) = Some (m2, idx3 H W f i j + 1) /\
          stores m' m2 b (idx3 H W f i j) (val f i j)) ->
    exists m', for_ C (fun f => for_ H (fun i => for_ W (body f i))) (m, 0) = Some (m', C * H * W) /\
      only m m' b /\ holds m' b (tab3 C H W val).
  Proof.
    intros HC HH HW HL HB. rewrite for_nest3 by assumption.
    destruct (fill_stores_aux fst (fun k s => snd s = k) (C * H * W)
      (fun k => body (k / (H * W)) ((k / W) mod H) (k mod W))
      (fun k => val (k / (H * W)) ((k / W) mod H) (k mod W)) b (m, 0)) as (s' & E & O & Hh & Hc); [nia|exact HL|reflexivity| |].
    - intros k [m' p] Hk O Hp _ _. cbn in Hp. subst p.
      destruct (split3_range C H W k) as (Q1 & Q2 & Q3 & H1 & H2 & H3); auto.
      destruct (HB _ _ _ m' H1 H2 H3 O) as (m2 & E2 & S2). rewrite idx3_join in E2, S2 by lia.
      exists (m2, k + 1). cbn. auto.
    - destruct s' as [m' p]. cbn in *. subst p. eauto.
  Qed.
End Stores.
