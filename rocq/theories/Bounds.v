(** * Array accesses do not depend on the values of the elements.

    Every emitted loop is run a second time on an arithmetic with a single
    number ([unit]); if the run on that arithmetic stays inside its arrays then
    so does the run on any other arithmetic.  The comparison of the one-element
    arithmetic answers [true], so that both branches of a conditional
    assignment are covered. *)
From Coq Require Import ZArith List Lia Bool QArith.
Import ListNotations.
From Verif Require Import CMem Tensor Num Activation Movement Linear Conv Pooling Pad Reduce Resize Graph Net LayerKinds.
From Verif Require Broadcast.
Open Scope Z_scope.

Definition U : num := mkNum unit tt tt (fun _ _ => tt) (fun _ _ => tt) (fun _ _ => tt) (fun _ _ => tt)
  (fun _ _ => true) (fun _ => tt) (fun _ => tt) (fun _ => tt) (fun _ => tt) (fun _ => tt).

(** [o2] succeeds whenever [o1] does. *)
Definition osim {A B} (R : A -> B -> Prop) (o1 : option A) (o2 : option B) : Prop :=
  forall a, o1 = Some a -> exists b, o2 = Some b /\ R a b.
Definition any {A B} (a : A) (b : B) : Prop := True.

Lemma sim_bind {A B C D} (R : A -> B -> Prop) (Q : C -> D -> Prop) o1 o2 f1 f2 :
  osim R o1 o2 -> (forall a b, R a b -> osim Q (f1 a) (f2 b)) -> osim Q (bind o1 f1) (bind o2 f2).
Proof.
  intros H F c E. destruct o1 as [a|]; [|discriminate]. destruct (H a eq_refl) as (b & E2 & Rab).
  rewrite E2. cbn [bind] in *. exact (F a b Rab c E).
Qed.

Lemma sim_some {A B} (R : A -> B -> Prop) a b : R a b -> osim R (Some a) (Some b).
Proof. intros H c E. injection E as <-. exists b. split; [reflexivity|exact H]. Qed.

Lemma sim_none {A B} (R : A -> B -> Prop) o : osim R None o.
Proof. intros a E. discriminate. Qed.

Lemma sim_eq {A} (o : option A) : osim eq o o.
Proof. intros a E. exists a. split; [exact E|reflexivity]. Qed.

Lemma sim_loop {A B} (R : A -> B -> Prop) n b1 b2 :
  (forall i s1 s2, R s1 s2 -> osim R (b1 i s1) (b2 i s2)) ->
  forall s1 s2, R s1 s2 -> osim R (for_ n b1 s1) (for_ n b2 s2).
Proof.
  intros H s1 s2 H0. unfold for_. induction (Z.to_nat n) as [|k IH]; cbn [loop].
  - apply sim_some. exact H0.
  - eapply sim_bind; [exact IH|]. intros a b Hab. apply H. exact Hab.
Qed.

Section Sim.
  Context (N : num) (ninf : T N) (q : Q -> T N).
  Notation V := (T N).

  (** Same array lengths. *)
  Definition lens (m1 : mem (T U)) (m2 : mem V) : Prop := forall b, zlen (m1 b) = zlen (m2 b).

  Lemma sim_rdl {A B} (l1 : list A) (l2 : list B) i : zlen l1 = zlen l2 -> osim any (rdl l1 i) (rdl l2 i).
  Proof.
    intros H a E. apply rdl_range in E. rewrite H in E. destruct (rdl_some l2 i E) as (v & E2).
    exists v. split; [exact E2|exact I].
  Qed.
  Lemma sim_rd m1 m2 b i : lens m1 m2 -> osim any (rd m1 b i) (rd m2 b i).
  Proof. intros H. apply sim_rdl. apply H. Qed.
  Lemma sim_wr m1 m2 b i v1 v2 : lens m1 m2 -> osim lens (wr m1 b i v1) (wr m2 b i v2).
  Proof.
    intros H m1' E. unfold wr in E.
    destruct (wrl (m1 b) i v1) as [l1|] eqn:E1; [|discriminate]. injection E as <-.
    assert (R : 0 <= i < zlen (m1 b)).
    { unfold wrl in E1. destruct (Z.leb_spec 0 i), (Z.ltb_spec i (zlen (m1 b))); cbn [andb] in E1; try discriminate. lia. }
    destruct (wrl_spec (m1 b) i v1 R) as (l1' & E1' & L1 & _). rewrite E1 in E1'. injection E1' as <-.
    rewrite H in R. destruct (wr_spec m2 b i v2 R) as (m2' & E2 & L2 & _ & _ & O2).
    exists m2'. split; [exact E2|]. intros b'. destruct (bname_eq_dec b' b) as [->|Hn].
    - rewrite upd_same. rewrite L1, L2. apply H.
    - rewrite upd_other by exact Hn. rewrite O2 by exact Hn. apply H.
  Qed.
  Lemma sim_for_mem n (b1 : Z -> mem (T U) -> option (mem (T U))) (b2 : Z -> mem V -> option (mem V)) s1 s2 :
    lens s1 s2 -> (forall i s1 s2, lens s1 s2 -> osim lens (b1 i s1) (b2 i s2)) -> osim lens (for_ n b1 s1) (for_ n b2 s2).
  Proof. intros H0 H. apply sim_loop; assumption. Qed.
  Lemma sim_for_any {A B} n (b1 : Z -> A -> option A) (b2 : Z -> B -> option B) s1 s2 :
    (forall i s1 s2, osim any (b1 i s1) (b2 i s2)) -> osim any (for_ n b1 s1) (for_ n b2 s2).
  Proof. intros H. apply sim_loop; [|exact I]. intros. apply H. Qed.
  Definition lens2 (a : mem (T U) * Z) (b : mem V * Z) : Prop := lens (fst a) (fst b) /\ snd a = snd b.
  Lemma sim_for_mem2 n (b1 : Z -> mem (T U) * Z -> option (mem (T U) * Z)) (b2 : Z -> mem V * Z -> option (mem V * Z)) s1 s2 :
    lens2 s1 s2 -> (forall i s1 s2, lens2 s1 s2 -> osim lens2 (b1 i s1) (b2 i s2)) -> osim lens2 (for_ n b1 s1) (for_ n b2 s2).
  Proof. intros H0 H. apply sim_loop; assumption. Qed.

  Ltac sim :=
    cbv beta zeta;
    lazymatch goal with
    | |- lens _ _ => assumption
    | |- any _ _ => exact I
    | |- zlen _ = zlen _ => assumption
    | |- osim _ (bind _ _) (bind _ _) => eapply sim_bind; [sim | intros; subst; sim]
    | |- osim _ (rd _ _ _) (rd _ _ _) => apply sim_rd; sim
    | |- osim _ (rdl ?l _) (rdl ?l _) => apply sim_eq
    | |- osim _ (rdl _ _) (rdl _ _) => apply sim_rdl; sim
    | |- osim _ (wr _ _ _ _) (wr _ _ _ _) => apply sim_wr; sim
    | |- osim _ (Some _) (Some _) => apply sim_some; sim
    | |- osim _ None _ => apply sim_none
    | |- osim _ (for_ (S := mem (T U)) _ _ _) (for_ _ _ _) => apply sim_for_mem; [sim | intros ? ? ? ?; sim]
    | |- osim _ (for_ (S := mem (T U) * Z) _ _ _) (for_ _ _ _) => apply sim_for_mem2; [sim | intros ? ? ? ?; sim]
    | |- osim _ (for_ _ _ _) (for_ _ _ _) => apply sim_for_any; intros ? ? ?; sim
    | |- osim _ (if ?c then _ else _) (if ?c then _ else _) => destruct c; sim
    | |- osim _ (match ?c with _ => _ end) (match ?c with _ => _ end) => destruct c; sim
    | |- _ => idtac
    end.

  Definition code_sim (c1 : mem (T U) -> option (mem (T U))) (c2 : mem V -> option (mem V)) : Prop :=
    forall m1 m2, lens m1 m2 -> osim lens (c1 m1) (c2 m2).

  Lemma sim_copy_from_temp size act1 act2 out : code_sim (copy_from_temp size act1 out) (copy_from_temp size act2 out).
  Proof. intros m1 m2 H. unfold copy_from_temp. sim. Qed.
  Lemma sim_via_temp c1 c2 size act1 act2 out : code_sim c1 c2 ->
    code_sim (via_temp c1 size act1 out) (via_temp c2 size act2 out).
  Proof. intros HC m1 m2 H. unfold via_temp. eapply sim_bind; [apply HC; exact H|]. apply sim_copy_from_temp. Qed.
  Ltac start := let m1 := fresh "m1" in let m2 := fresh "m2" in let H := fresh "H" in
    first [apply sim_via_temp | idtac]; intros m1 m2 H; sim.

  Lemma sim_copy src dst size : code_sim (copy_c src dst size) (copy_c src dst size).
  Proof. unfold copy_c. start. Qed.
  Lemma sim_first_to_last src dst C H W : code_sim (first_to_last_c src dst C H W) (first_to_last_c src dst C H W).
  Proof. unfold first_to_last_c. start. Qed.
  Lemma sim_last_to_first src dst C H W : code_sim (last_to_first_c src dst C H W) (last_to_first_c src dst C H W).
  Proof. unfold last_to_first_c. start. Qed.
  Lemma sim_constant w1 w2 dst size : zlen w1 = zlen w2 -> code_sim (constant_c w1 dst size) (constant_c w2 dst size).
  Proof. intros HW. unfold constant_c. start. Qed.
  Lemma sim_transpose src out C H W p1 p2 p3 act1 act2 :
    code_sim (transpose_c src out C H W p1 p2 p3 act1) (transpose_c src out C H W p1 p2 p3 act2).
  Proof. unfold transpose_c. destruct (transpose_abc p1 p2 p3) as [[? ?] ?]. start. Qed.
  Lemma sim_tile src out C H W rc rh rw act1 act2 :
    code_sim (tile_c src out C H W rc rh rw act1) (tile_c src out C H W rc rh rw act2).
  Proof. unfold tile_c. start. Qed.
  Lemma sim_gather_elements src out axis H W OC OH OW inds act1 act2 :
    code_sim (gather_elements_c src out axis H W OC OH OW inds act1) (gather_elements_c src out axis H W OC OH OW inds act2).
  Proof. unfold gather_elements_c. start. Qed.
  Lemma sim_flatten out cl C H W : code_sim (flatten_c out cl C H W) (flatten_c out cl C H W).
  Proof. unfold flatten_c. destruct cl; start. Qed.
  Lemma sim_gather_store src act1 act2 a s1 s2 : lens2 s1 s2 ->
    osim lens2 (gather_store src act1 a s1) (gather_store src act2 a s2).
  Proof.
    destruct s1 as [m1 p1], s2 as [m2 p2]. intros [HL HP]. cbn [fst snd] in *. subst. unfold gather_store.
    eapply sim_bind; [sim|intros]. eapply sim_bind; [sim|intros]. eapply sim_bind; [sim|intros].
    eapply sim_bind; [sim|intros]. apply sim_some. split; [assumption|reflexivity].
  Qed.
  Lemma sim_gather src out axis C H W OC OH OW inds act1 act2 :
    code_sim (gather_c src out axis C H W OC OH OW inds act1) (gather_c src out axis C H W OC OH OW inds act2).
  Proof.
    intros m1 m2 HL. unfold gather_c.
    apply (sim_bind lens2).
    - assert (HL2 : lens2 (m1, 0) (m2, 0)) by (split; [exact HL|reflexivity]).
      unfold gather_loops. destruct (axis =? 1); [|destruct (axis =? 2)];
        repeat (first [ apply sim_gather_store; assumption
                      | apply sim_for_mem2; [assumption|intros ? ? ? ?]
                      | eapply sim_bind; [apply sim_eq | intros; subst] ]).
    - intros a b [Hab _]. apply sim_copy_from_temp. exact Hab.
  Qed.
  Lemma sim_concat_body axis OH OW f i j ops : forall inf, code_sim (concat_body axis OH OW f i j inf ops) (concat_body axis OH OW f i j inf ops).
  Proof.
    induction ops as [|o ops IH]; intros inf m1 m2 HL; cbn [concat_body]; [sim|].
    eapply (sim_bind lens); [sim|]. intros a b Hab. apply IH. exact Hab.
  Qed.
  Lemma sim_concat out axis OC OH OW ops act1 act2 :
    code_sim (concat_c out axis OC OH OW ops act1) (concat_c out axis OC OH OW ops act2).
  Proof. unfold concat_c. start. apply sim_concat_body. assumption. Qed.

  Lemma sim_dense src out prev n w1 w2 b1 b2 act1 act2 : zlen w1 = zlen w2 -> zlen b1 = zlen b2 ->
    code_sim (dense_c U src out prev n w1 b1 act1) (dense_c N src out prev n w2 b2 act2).
  Proof. intros HW HB. unfold dense_c. start. Qed.
  Lemma sim_matmul l r out C OH OW K act1 act2 :
    code_sim (matmul_c U l r out C OH OW K act1) (matmul_c N l r out C OH OW K act2).
  Proof. unfold matmul_c. start. Qed.
  Lemma sim_gemm src out tA tB al1 al2 be1 be2 m n k w1 w2 b1 b2 act1 act2 : zlen w1 = zlen w2 -> zlen b1 = zlen b2 ->
    code_sim (gemm_c U src out tA tB al1 be1 m n k w1 b1 act1) (gemm_c N src out tA tB al2 be2 m n k w2 b2 act2).
  Proof. intros HW HB. unfold gemm_c. start. Qed.
  Lemma sim_batchnorm src out C s sc1 sc2 me1 me2 va1 va2 bi1 bi2 e1 e2 act1 act2 :
    zlen sc1 = zlen sc2 -> zlen me1 = zlen me2 -> zlen va1 = zlen va2 -> zlen bi1 = zlen bi2 ->
    code_sim (batchnorm_c U src out C s sc1 me1 va1 bi1 e1 act1) (batchnorm_c N src out C s sc2 me2 va2 bi2 e2 act2).
  Proof. intros H1 H2 H3 H4. unfold batchnorm_c. start. Qed.

  Lemma sim_conv6 src out c w1 w2 b1 b2 act1 act2 : zlen w1 = zlen w2 -> zlen b1 = zlen b2 ->
    code_sim (conv6_c U src out c w1 b1 act1) (conv6_c N src out c w2 b2 act2).
  Proof. intros HW HB. unfold conv6_c. start. Qed.
  Lemma sim_im2 di src out c : code_sim (im2_c U di src out c) (im2_c N di src out c).
  Proof. unfold im2_c. start. Qed.
  Lemma sim_gemm_nn rd1 rd2 m n k w1 w2 b1 b2 act1 act2 : zlen w1 = zlen w2 -> zlen b1 = zlen b2 ->
    (forall m1 m2 p, lens m1 m2 -> osim any (rd1 m1 p) (rd2 m2 p)) ->
    code_sim (gemm_nn_c U rd1 m n k w1 b1 act1) (gemm_nn_c N rd2 m n k w2 b2 act2).
  Proof. intros HW HB HR. unfold gemm_nn_c. start. apply HR. assumption. Qed.
  Lemma sim_std_gemm_nn pc out c w1 w2 b1 b2 act1 act2 : zlen w1 = zlen w2 -> zlen b1 = zlen b2 ->
    code_sim (std_gemm_c U NN pc out c w1 b1 act1) (std_gemm_c N NN pc out c w2 b2 act2).
  Proof.
    intros HW HB m1 m2 HL. unfold std_gemm_c. cbv zeta.
    eapply (sim_bind lens). { destruct pc; sim. } intros a b Hab.
    eapply (sim_bind lens); [apply sim_im2; exact Hab|]. clear a b Hab. intros a b Hab.
    eapply (sim_bind lens); [sim|]. clear a b Hab. intros a b Hab.
    eapply (sim_bind lens); [apply sim_gemm_nn; auto; intros; sim|]. clear a b Hab. intros a b Hab.
    apply sim_copy_from_temp. exact Hab.
  Qed.
  Lemma sim_indirect src out c w1 w2 b1 b2 act1 act2 : zlen w1 = zlen w2 -> zlen b1 = zlen b2 ->
    code_sim (indirect_nn_c U src out c w1 b1 act1) (indirect_nn_c N src out c w2 b2 act2).
  Proof.
    intros HW HB m1 m2 HL. unfold indirect_nn_c.
    eapply (sim_bind lens); [sim|]. intros a b Hab.
    eapply (sim_bind lens); [apply sim_gemm_nn; auto|].
    - intros ? ? p ?. unfold rd_pointer. sim.
    - clear a b Hab. intros a b Hab. apply sim_copy_from_temp. exact Hab.
  Qed.

  Lemma sim_pool_window {A B} P src f i j (st1 : T U -> A -> A) (st2 : V -> B -> B) m1 m2 s1 s2 : lens m1 m2 ->
    osim any (pool_window U P src f i j st1 m1 s1) (pool_window N P src f i j st2 m2 s2).
  Proof. intros HL. unfold pool_window. do 2 (apply sim_for_any; intros). sim. Qed.
  Lemma sim_max_pool P src out act1 act2 : code_sim (max_pool_c U tt P src out act1) (max_pool_c N ninf P src out act2).
  Proof. unfold max_pool_c. start. apply sim_pool_window. assumption. Qed.
  Lemma sim_avg_pool P src out act1 act2 : code_sim (avg_pool_c U P src out act1) (avg_pool_c N P src out act2).
  Proof. unfold avg_pool_c. start. apply sim_pool_window. assumption. Qed.

  Lemma sim_constant_pad src out C H W P v1 v2 act1 act2 :
    code_sim (constant_pad_c src out C H W P v1 act1) (constant_pad_c src out C H W P v2 act2).
  Proof. unfold constant_pad_c. start. Qed.
  Lemma sim_nonconstant_pad ix src out C H W P act1 act2 :
    code_sim (nonconstant_pad_c ix src out C H W P act1) (nonconstant_pad_c ix src out C H W P act2).
  Proof.
    unfold nonconstant_pad_c. apply sim_via_temp. intros m1 m2 HL.
    do 3 (apply sim_for_mem; [assumption|intros]).
    do 3 (eapply sim_bind; [apply sim_eq | intros; subst]). sim.
  Qed.

  Lemma sim_broadcast k ops cst1 cst2 out O act1 act2 :
    match cst1, cst2 with
    | None, None => True | Some (s1, w1), Some (s2, w2) => s1 = s2 /\ zlen w1 = zlen w2 | _, _ => False
    end ->
    code_sim (Broadcast.broadcast_c U k ops cst1 out O act1) (Broadcast.broadcast_c N k ops cst2 out O act2).
  Proof.
    intros HC. unfold Broadcast.broadcast_c.
    assert (RA : forall f i j ops a b, lens a b ->
      osim (fun l1 l2 => zlen l1 = zlen l2) (Broadcast.read_all U a f i j ops) (Broadcast.read_all N b f i j ops)).
    { intros f i j. clear - N. induction ops as [|o ops IH]; intros a b Hab; cbn [Broadcast.read_all].
      - apply sim_some. reflexivity.
      - unfold Broadcast.bread. eapply sim_bind; [sim|intros].
        eapply sim_bind; [apply IH; exact Hab|intros]. apply sim_some. cbv beta in *. rewrite !zlen_cons. lia. }
    assert (AC : forall op1 op2 f i j p ops, code_sim (Broadcast.accumulate U op1 f i j p ops) (Broadcast.accumulate N op2 f i j p ops)).
    { intros op1 op2 f i j p. clear - N. induction ops as [|o ops IH]; intros a b Hab; cbn [Broadcast.accumulate]; [sim|].
      unfold Broadcast.bread. eapply sim_bind; [sim|intros]. eapply sim_bind; [sim|intros].
      eapply (sim_bind lens); [sim|intros]. apply IH. assumption. }
    assert (MM : forall k f i j p s1 s2, lens s1 s2 -> osim lens
      (match ops with [] => None | o :: ops' => v <- Broadcast.bread U s1 f i j o ;; m1 <- wr s1 Temp p v ;;
         Broadcast.accumulate U (Broadcast.bop U k) f i j p ops' m1 end)
      (match ops with [] => None | o :: ops' => v <- Broadcast.bread N s2 f i j o ;; m1 <- wr s2 Temp p v ;;
         Broadcast.accumulate N (Broadcast.bop N k) f i j p ops' m1 end)).
    { intros k0 f i j p s1 s2 HS. destruct ops as [|o ops']; [apply sim_none|]. unfold Broadcast.bread.
      eapply sim_bind; [sim|intros]. eapply (sim_bind lens); [sim|intros]. apply AC. assumption. }
    assert (OT : forall k f i j p s1 s2, lens s1 s2 -> osim lens
      (vs <- Broadcast.read_all U s1 f i j ops ;;
        match vs with
        | [] => None
        | v :: vs' =>
            let r := fold_left (Broadcast.bop U k) vs' v in
            match cst1 with
            | None => wr s1 Temp p r
            | Some (s, w) => c <- rdl w (Broadcast.bidx s f i j) ;; wr s1 Temp p (Broadcast.bop U k r c)
            end
        end)
      (vs <- Broadcast.read_all N s2 f i j ops ;;
        match vs with
        | [] => None
        | v :: vs' =>
            let r := fold_left (Broadcast.bop N k) vs' v in
            match cst2 with
            | None => wr s2 Temp p r
            | Some (s, w) => c <- rdl w (Broadcast.bidx s f i j) ;; wr s2 Temp p (Broadcast.bop N k r c)
            end
        end)).
    { intros k0 f i j p s1 s2 HS. eapply sim_bind; [apply RA; exact HS|].
      intros [|x xs] [|y ys] HX; try (apply sim_none);
        [rewrite zlen_cons, zlen_nil in HX; pose proof (zlen_nonneg xs); lia|].
      cbv zeta. destruct cst1 as [[c1 w1]|], cst2 as [[c2 w2]|]; try contradiction; [|sim].
      destruct HC as [<- HC]. sim. }
    apply sim_via_temp. intros m1 m2 HL. do 3 (apply sim_for_mem; [assumption|intros]).
    unfold Broadcast.broadcast_body. destruct k.
    - exact (OT Broadcast.BAdd _ _ _ _ _ _ ltac:(eassumption)).
    - exact (OT Broadcast.BSub _ _ _ _ _ _ ltac:(eassumption)).
    - exact (OT Broadcast.BMul _ _ _ _ _ _ ltac:(eassumption)).
    - exact (OT Broadcast.BDiv _ _ _ _ _ _ ltac:(eassumption)).
    - exact (MM Broadcast.BMax _ _ _ _ _ _ ltac:(eassumption)).
    - exact (MM Broadcast.BMin _ _ _ _ _ _ ltac:(eassumption)).
    - cbv zeta. eapply sim_bind; [apply RA; eassumption|].
      intros [|x xs] [|y ys] HX; try (apply sim_none);
        [rewrite zlen_cons, zlen_nil in HX; pose proof (zlen_nonneg xs); lia|]. sim.
  Qed.

  Lemma sim_racc_temp k src cb pos p : code_sim (racc_temp U k src cb pos p) (racc_temp N k src cb pos p).
  Proof.
    intros m1 m2 HL. unfold racc_temp. eapply sim_bind; [sim|]. intros u1 u2 _.
    assert (IF : forall t : bool, osim lens (v <- rd m1 src pos;; wr m1 Temp p v)
        (if t then v <- rd m2 src pos;; wr m2 Temp p v else Some m2)).
    { intros [|]; [sim|]. intros a E. exists m2. split; [reflexivity|].
      destruct (rd m1 src pos) as [v|]; [|discriminate]. cbn [bind] in E.
      destruct (sim_wr m1 m2 Temp p v u2 HL a E) as (b & E2 & Hab).
      assert (R : 0 <= p < zlen (m2 Temp)).
      { unfold wr in E2. destruct (wrl (m2 Temp) p u2) as [l|] eqn:E3; [|discriminate].
        unfold wrl in E3. destruct (Z.leb_spec 0 p), (Z.ltb_spec p (zlen (m2 Temp))); cbn [andb] in E3; try discriminate. lia. }
      destruct (wr_spec m2 Temp p u2 R) as (b' & E4 & L4 & _ & _ & O4). rewrite E2 in E4. injection E4 as <-.
      intros c. rewrite (Hab c). destruct (bname_eq_dec c Temp) as [->|Hc]; [exact L4|]. rewrite O4 by exact Hc. reflexivity. }
    destruct k; try (sim; fail).
    - eapply sim_bind; [sim|]. intros c1 c2 _. exact (IF (nlt N u2 c2)).
    - eapply sim_bind; [sim|]. intros c1 c2 _. exact (IF (nlt N c2 u2)).
  Qed.
  Lemma sim_rstart k src first m1 m2 : lens m1 m2 -> osim any (rstart U k src first m1) (rstart N k src first m2).
  Proof. intros HL. unfold rstart. destruct k; sim. Qed.
  Lemma sim_rdivide k nb p : code_sim (rdivide U k nb p) (rdivide N k nb p).
  Proof. intros m1 m2 HL. unfold rdivide. destruct k; sim. Qed.
  Lemma sim_reduce_all k src out size act1 act2 : code_sim (reduce_all U k src out size act1) (reduce_all N k src out size act2).
  Proof.
    intros m1 m2 HL. unfold reduce_all. eapply sim_bind; [apply sim_rstart; exact HL|]. intros a b _. sim.
  Qed.
  Lemma sim_reduce_one k src out D1 D2 R pos first size act1 act2 :
    code_sim (reduce_one U k src out D1 D2 R pos first size act1) (reduce_one N k src out D1 D2 R pos first size act2).
  Proof.
    unfold reduce_one. apply sim_via_temp. intros m1 m2 HL. do 2 (apply sim_for_mem; [assumption|intros]).
    eapply sim_bind; [apply sim_rstart; assumption|intros]. eapply (sim_bind lens); [sim|intros].
    eapply (sim_bind lens); [apply sim_for_mem; [assumption|intros; apply sim_racc_temp; assumption]|intros].
    apply sim_rdivide. assumption.
  Qed.
  Lemma sim_reduce_two k src out D R1 R2 pos first size act1 act2 :
    code_sim (reduce_two U k src out D R1 R2 pos first size act1) (reduce_two N k src out D R1 R2 pos first size act2).
  Proof.
    unfold reduce_two. apply sim_via_temp. intros m1 m2 HL. apply sim_for_mem; [assumption|intros].
    eapply sim_bind; [apply sim_rstart; assumption|intros]. eapply (sim_bind lens); [sim|intros].
    eapply (sim_bind lens); [do 2 (apply sim_for_mem; [assumption|intros]); apply sim_racc_temp; assumption|intros].
    apply sim_rdivide. assumption.
  Qed.
  Lemma sim_reduce_none out size act1 act2 : code_sim (reduce_none U out size act1) (reduce_none N out size act2).
  Proof. unfold reduce_none. start. Qed.
  Lemma sim_reduce k src out C H W axes noop act1 act2 :
    code_sim (reduce_c U k src out C H W axes noop act1) (reduce_c N k src out C H W axes noop act2).
  Proof.
    unfold reduce_c. cbv zeta. destruct (in_axes 1 axes), (in_axes 2 axes), (in_axes 3 axes); try (destruct noop);
      first [apply sim_reduce_all | apply sim_reduce_one | apply sim_reduce_two | apply sim_reduce_none].
  Qed.

  Lemma sim_softmax_sums src D1 D2 R pos : code_sim (softmax_sums U src D1 D2 R pos) (softmax_sums N src D1 D2 R pos).
  Proof. unfold softmax_sums. start. Qed.
  Lemma sim_softmax_div src out C H W sidx : code_sim (softmax_div U src out C H W sidx) (softmax_div N src out C H W sidx).
  Proof. unfold softmax_div. start. Qed.
  Lemma sim_softmax src out C H W axis act1 act2 :
    code_sim (softmax_c U src out C H W axis act1) (softmax_c N src out C H W axis act2).
  Proof.
    unfold softmax_c. destruct (one_dimension C H W).
    - intros m1 m2 HL. unfold softmax_1d. eapply (sim_bind any); [sim|intros]. sim.
    - intros m1 m2 HL. unfold softmax_nd. destruct (axis =? 1); [|destruct (axis =? 2)];
        (eapply (sim_bind lens); [apply sim_softmax_sums; exact HL|]; apply sim_softmax_div).
  Qed.

  Lemma sim_nearest nm src out p act1 act2 : code_sim (nearest_c U nm src out p act1) (nearest_c N nm src out p act2).
  Proof.
    unfold nearest_c. apply sim_via_temp. intros m1 m2 HL. do 3 (apply sim_for_mem; [assumption|intros]).
    do 2 (eapply sim_bind; [apply sim_eq | intros; subst]). sim.
  Qed.
  Lemma sim_resize_loops cell1 cell2 out p act1 act2 :
    (forall f i j m1 m2, lens m1 m2 -> osim any (cell1 f i j m1) (cell2 f i j m2)) ->
    code_sim (resize_loops U cell1 out p act1) (resize_loops N cell2 out p act2).
  Proof. intros HC. unfold resize_loops. start. apply HC. assumption. Qed.
  Lemma sim_linear_1d qq src dim coord f i j m1 m2 : lens m1 m2 ->
    osim any (linear_cell_1d U qq src dim coord f i j m1) (linear_cell_1d N q src dim coord f i j m2).
  Proof.
    intros HL. unfold linear_cell_1d. cbv zeta. do 2 (eapply (sim_bind any); [sim|intros]).
    eapply sim_bind; [apply sim_eq|intros; subst]. sim.
  Qed.
  Lemma sim_linear_2d qq src p f i j m1 m2 : lens m1 m2 ->
    osim any (linear_cell_2d U qq src p f i j m1) (linear_cell_2d N q src p f i j m2).
  Proof.
    intros HL. unfold linear_cell_2d. do 2 (eapply sim_bind; [apply sim_eq | intros; subst]). cbv zeta.
    do 4 (eapply (sim_bind any); [sim|intros]). sim.
  Qed.
  Lemma sim_linear qq src out p act1 act2 :
    match linear_c U qq src out p act1, linear_c N q src out p act2 with
    | Some c1, Some c2 => code_sim c1 c2 | None, _ => True | _, _ => False end.
  Proof.
    unfold linear_c, by_shape. repeat match goal with |- context [if ?c then _ else _] => destruct c end; cbn [bind];
      try exact I; apply sim_resize_loops; intros;
      first [apply sim_linear_1d; assumption | apply sim_linear_2d; assumption].
  Qed.
  Lemma sim_cubic_column a1 a2 src p f x0 col s1 s2 m1 m2 : lens m1 m2 ->
    osim any (cubic_column_c U a1 src p f x0 col s1 m1) (cubic_column_c N a2 src p f x0 col s2 m2).
  Proof. intros HL. unfold cubic_column_c. cbv zeta. sim. Qed.
  Lemma sim_cubic_2d qq a1 a2 src p f i j m1 m2 : lens m1 m2 ->
    osim any (cubic_cell_2d U qq a1 src p f i j m1) (cubic_cell_2d N q a2 src p f i j m2).
  Proof.
    intros HL. unfold cubic_cell_2d. do 2 (eapply sim_bind; [apply sim_eq | intros; subst]). cbv zeta.
    do 4 (eapply (sim_bind any); [apply sim_cubic_column; assumption|intros]). sim.
  Qed.
  Lemma sim_cubic_1d qq a1 a2 src dim coord f i j m1 m2 : lens m1 m2 ->
    osim any (cubic_cell_1d U qq a1 src dim coord f i j m1) (cubic_cell_1d N q a2 src dim coord f i j m2).
  Proof.
    intros HL. unfold cubic_cell_1d. eapply sim_bind; [apply sim_eq|intros; subst]. cbv zeta. sim.
  Qed.
  Lemma sim_cubic qq a1 a2 src out p act1 act2 :
    match cubic_c U qq a1 src out p act1, cubic_c N q a2 src out p act2 with
    | Some c1, Some c2 => code_sim c1 c2 | None, _ => True | _, _ => False end.
  Proof.
    unfold cubic_c, by_shape. repeat match goal with |- context [if ?c then _ else _] => destruct c end; cbn [bind];
      try exact I; apply sim_resize_loops; intros;
      first [apply sim_cubic_1d; assumption | apply sim_cubic_2d; assumption].
  Qed.

  (** The text of an activation function is always an expression. *)
  Lemma c_value_defined (a : activation N) v : exists r, c_value N (write_activation_str N a [TId 0]) (fun _ => v) = Some r.
  Proof. destruct a; cbn; unfold str; repeat match goal with |- context [if ?c then _ else _] => destruct c end; cbn; eexists; reflexivity. Qed.
  Lemma sim_activation src out n a : code_sim (activation_c U src out n LinearAct) (activation_c N src out n a).
  Proof.
    intros m1 m2 HL. unfold activation_c. apply sim_for_mem; [exact HL|]. intros k s1 s2 HS.
    eapply (sim_bind any); [sim|]. intros v1 v2 _.
    destruct (c_value_defined a v2) as (r & ->). cbn [bind].
    destruct (c_value U _ _) as [r1|]; cbn [bind]; [|apply sim_none]. sim.
  Qed.

  (** ** Layers and models over the one-element arithmetic. *)
  Definition blank (l : list V) : list (T U) := map (fun _ => tt) l.
  Lemma zlen_blank l : zlen (blank l) = zlen l.
  Proof. unfold zlen, blank. rewrite map_length. reflexivity. Qed.
  Definition blank_mode (m : pad_mode N) : pad_mode U :=
    match m with PadConstant _ v => PadConstant U tt | PadEdge _ => PadEdge U | PadReflect _ => PadReflect U | PadWrap _ => PadWrap U end.
  Definition blank_kind (k : kind N) : kind U :=
    match k with
    | KInput4 _ C H W => KInput4 U C H W
    | KInput _ n => KInput U n
    | KConstant _ w => KConstant U (blank w)
    | KActivation _ n => KActivation U n
    | KDense _ prev n w b => KDense U prev n (blank w) (blank b)
    | KMatMul _ C OH OW K => KMatMul U C OH OW K
    | KGemm _ tA tB al be m n k w b =>
        KGemm U tA tB (option_map (fun _ => tt) al) (option_map (fun _ => tt) be) m n k (blank w) (blank b)
    | KBatchNorm _ C H W s me va bi e => KBatchNorm U C H W (blank s) (blank me) (blank va) (blank bi) tt
    | KTranspose _ C H W p1 p2 p3 => KTranspose U C H W p1 p2 p3
    | KConcat _ axis OC OH OW shapes => KConcat U axis OC OH OW shapes
    | KGather _ axis C H W inds => KGather U axis C H W inds
    | KGatherElements _ axis C H W OC OH OW inds => KGatherElements U axis C H W OC OH OW inds
    | KTile _ C H W rc rh rw => KTile U C H W rc rh rw
    | KFlatten _ cl C H W => KFlatten U cl C H W
    | KConv _ impl c w b => KConv U impl c (blank w) (blank b)
    | KMaxPool _ P => KMaxPool U P
    | KAvgPool _ P => KAvgPool U P
    | KPad _ mode C H W P => KPad U (blank_mode mode) C H W P
    | KBroadcast _ k shapes cst o => KBroadcast U k shapes (option_map (fun c => (fst c, blank (snd c))) cst) o
    | KReduce _ k C H W axes noop => KReduce U k C H W axes noop
    | KSoftmax _ C H W axis => KSoftmax U C H W axis
    | KNearest _ nm p => KNearest U nm p
    | KLinear _ p => KLinear U p
    | KCubic _ a p => KCubic U tt p
    end.
  Definition blank_layer (l : layer N) : layer U := mkLayer U (blank_kind (lkind N l)) LinearAct.
  Definition blank_model (md : model N) : model U :=
    mkModel U (md_graph N md) (fun n => blank_layer (md_layer N md n)) (md_last N md).

  Lemma blank_size k : out_size U (blank_kind k) = out_size N k.
  Proof. destruct k; cbn [blank_kind out_size]; try reflexivity. apply zlen_blank. Qed.
  Lemma blank_channels k : out_channels U (blank_kind k) = out_channels N k.
  Proof. destruct k; reflexivity. Qed.
  Lemma blank_patches k : md_patches U (blank_kind k) = md_patches N k.
  Proof. destruct k; reflexivity. Qed.

  Lemma sim_gen_code last l srcs out :
    code_sim (gen_code U tt (fun _ => tt) last (blank_layer l) srcs out) (gen_code N ninf q last l srcs out).
  Proof.
    destruct l as [k act]. unfold gen_code, blank_layer. cbn [lkind lact]. cbv zeta.
    assert (NO : forall c2, code_sim (fun _ => None) c2) by (intros c2 m1 m2 _; apply sim_none).
    destruct k; cbn [blank_kind];
      try (destruct srcs as [|s1 [|s2 [|s3 srcs]]]; try apply NO).
    all: try (first [ apply sim_copy | apply sim_activation
      | apply sim_dense; apply zlen_blank
      | apply sim_matmul | apply sim_gemm; apply zlen_blank | apply sim_batchnorm; apply zlen_blank
      | apply sim_transpose | apply sim_concat | apply sim_gather | apply sim_gather_elements | apply sim_tile
      | apply sim_flatten | apply sim_max_pool | apply sim_avg_pool | apply sim_reduce | apply sim_softmax | apply sim_nearest ]; fail).
    all: try (destruct last; first [apply sim_last_to_first | apply sim_copy]; fail).
    all: try (rewrite zlen_blank; apply sim_constant; apply zlen_blank).
    all: try (destruct impl; first [apply sim_conv6 | apply sim_std_gemm_nn | apply sim_indirect]; apply zlen_blank).
    all: try (destruct mode; cbn [blank_mode]; [apply sim_constant_pad | apply sim_nonconstant_pad ..]).
    all: try (apply sim_broadcast; destruct cst as [[s w]|]; cbn; [split; [reflexivity|apply zlen_blank]|exact I]).
    all: try (destruct impl; apply NO). all: try (destruct mode; cbn [blank_mode]; apply NO).
    - generalize (sim_linear (fun _ => tt) s1 out p (c_act U LinearAct) (c_act N act)).
      destruct (linear_c U _ _ _ _ _), (linear_c N _ _ _ _ _); intros HH; try contradiction; first [exact HH | apply NO].
    - generalize (sim_cubic (fun _ => tt) tt a s1 out p (c_act U LinearAct) (c_act N act)).
      destruct (cubic_c U _ _ _ _ _ _), (cubic_c N _ _ _ _ _ _); intros HH; try contradiction; first [exact HH | apply NO].
  Qed.

  (** ** The whole inference function. *)
  Section Model.
    Context (md : model N) (s : schedule).
    Let netU := python_net U tt (fun _ => tt) (blank_model md) s.
    Let netN := python_net N ninf q md s.

    Lemma blank_md_size n : size netU n = size netN n.
    Proof. cbn. unfold md_size, lk. cbn. apply blank_size. Qed.

    Lemma sim_run_layer n : code_sim (fun m => run_layer netU s m n) (fun m => run_layer netN s m n).
    Proof.
      intros m1 m2 HL. unfold run_layer.
      change (sources netU s n) with (sources netN s n).
      eapply sim_bind; [apply sim_eq|]. intros srcs ? <-.
      eapply sim_bind; [apply sim_eq|]. intros p ? <-.
      eapply (sim_bind lens).
      { exact (sim_gen_code (md_last N md) (md_layer N md n) srcs (Out p) m1 m2 HL). }
      intros a b Hab. destruct (dget (csts s) n) as [k|]; [|apply sim_some; exact Hab].
      rewrite blank_md_size. apply sim_copy. exact Hab.
    Qed.
    Lemma sim_run_layers l : code_sim (run_layers netU s l) (run_layers netN s l).
    Proof.
      induction l as [|n l IH]; intros m1 m2 HL; cbn [run_layers]; [apply sim_some; exact HL|].
      eapply (sim_bind lens); [apply sim_run_layer; exact HL|]. intros a b Hab. apply IH. exact Hab.
    Qed.
    Lemma sim_inference : code_sim (inference netU s) (inference netN s).
    Proof.
      intros m1 m2 HL. unfold inference. eapply (sim_bind lens); [apply sim_run_layers; exact HL|].
      intros a b Hab. eapply sim_bind; [apply sim_eq|]. intros p ? <-.
      cbn. unfold md_output_code, lk. cbn. rewrite blank_channels.
      unfold md_size, lk. cbn. rewrite blank_size.
      destruct (out_channels N _) as [[[C H] W]|]; [destruct (md_last N md)|]; first [apply sim_first_to_last | apply sim_copy]; exact Hab.
    Qed.
    Lemma blank_array_size b : array_size netU s b = array_size netN s b.
    Proof.
      assert (LM : l_size_max netU s = l_size_max netN s).
      { unfold l_size_max. f_equal. apply map_ext. apply blank_md_size. }
      assert (PA : forall n, patches_size netU n = patches_size netN n).
      { intros n. cbn. unfold lk. cbn. apply blank_patches. }
      assert (IC : forall n, is_concat netU n = is_concat netN n).
      { intros n. cbn. unfold lk. cbn. destruct (lkind N (md_layer N md n)); reflexivity. }
      assert (PM : patches_size_max netU s = patches_size_max netN s).
      { unfold patches_size_max. do 2 f_equal. apply map_ext. intros n. rewrite PA, IC, blank_md_size. reflexivity. }
      destruct b; unfold array_size, path_size, cst_size, temp_size.
      - rewrite LM, PM. replace (existsb _ (order s)) with
          (existsb (fun n => match patches_size netN n with Some _ => true | None => false end) (order s)); [reflexivity|].
        induction (order s) as [|n l IH]; cbn [existsb]; [reflexivity|]. rewrite PA, IH. reflexivity.
      - f_equal. apply map_ext. intros. apply blank_md_size.
      - rewrite LM, PM. reflexivity.
      - apply blank_md_size.
      - apply blank_md_size.
    Qed.
    Lemma blank_declared m : declared netN s m -> declared netU s (fun b => blank (m b)).
    Proof. intros D b. rewrite zlen_blank, blank_array_size. apply D. Qed.
  End Model.
End Sim.
