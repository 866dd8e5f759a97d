(** * The generated inference function computes the network (generic part). *)
From Coq Require Import ZArith List Lia Bool Permutation.
Import ListNotations.
Open Scope Z_scope.
From Verif Require Import CMem Tensor Movement MovementProofs Graph GraphSpec GraphProofs GraphProofs3 GraphProofs4 GraphProofs5 Net.

Lemma split_unique (a b : list nat) n x y : NoDup (a ++ n :: x) -> a ++ n :: x = b ++ n :: y -> a = b /\ x = y.
Proof.
  revert b. induction a as [|c a IH]; intros [|e b] ND E; cbn in *.
  - inversion E. auto.
  - exfalso. inversion E; subst. inversion ND; subst. apply H1. apply in_or_app. right. left. reflexivity.
  - exfalso. injection E as E1 E2. subst. inversion ND; subst. apply H1. apply in_or_app. right. left. reflexivity.
  - injection E as E1 E2. subst. inversion ND; subst. destruct (IH b H2 E2) as [-> ->]. auto.
Qed.

Lemma max_list_le l x : In x l -> x <= max_list l.
Proof. induction l as [|y l IH]; [intros []|]. cbn. intros [->|H]; [lia|]. specialize (IH H). unfold max_list in *. lia. Qed.
Lemma max_list_nonneg l : 0 <= max_list l.
Proof. induction l; cbn; unfold max_list in *; lia. Qed.

Lemma all_some_spec {A B} (f : A -> option B) l r : all_some (map f l) = Some r ->
  length r = length l /\ forall x, In x l -> exists y, f x = Some y /\ In y r.
Proof.
  revert r. induction l as [|a l IH]; intros r E; cbn in E.
  - inversion E; subst. split; [reflexivity|intros x []].
  - destruct (f a) as [b|] eqn:Ef; [|discriminate]. cbn in E.
    destruct (all_some (map f l)) as [bs|] eqn:El; [|discriminate]. cbn in E. inversion E; subst.
    destruct (IH bs eq_refl) as [L H]. split; [cbn; lia|].
    intros x [->|Hx]; [exists b; split; [exact Ef|left; reflexivity]|].
    destruct (H x Hx) as (y & E1 & E2). exists y. split; [exact E1|right; exact E2].
Qed.

Lemma all_some_total {A B} (f : A -> option B) l : (forall x, In x l -> exists y, f x = Some y) ->
  exists r, all_some (map f l) = Some r.
Proof.
  induction l as [|a l IH]; intros H; [exists []; reflexivity|].
  destruct (H a (or_introl eq_refl)) as [b Eb]. destruct IH as [r Er]; [intros; apply H; right; assumption|].
  exists (b :: r). cbn. rewrite Eb. cbn. rewrite Er. reflexivity.
Qed.

Lemma all_some_map {A B} (f : A -> option B) (h : A -> B) l : (forall x, In x l -> f x = Some (h x)) ->
  all_some (map f l) = Some (map h l).
Proof.
  induction l as [|a l IH]; intros H; [reflexivity|]. cbn. rewrite (H a (or_introl eq_refl)). cbn.
  rewrite IH by (intros; apply H; right; assumption). reflexivity.
Qed.

(** Forall over the pairing of the source arrays with the values. *)
Lemma all_some_combine {B V} (f : nat -> option B) (val : nat -> list V) (P : B * list V -> Prop) l : forall r,
  all_some (map f l) = Some r ->
  (forall x b, In x l -> f x = Some b -> P (b, val x)) ->
  Forall P (combine r (map val l)).
Proof.
  induction l as [|a l IH]; intros r E H; cbn in E.
  - inversion E; subst. constructor.
  - destruct (f a) as [b|] eqn:Ef; [|discriminate]. cbn in E.
    destruct (all_some (map f l)) as [bs|] eqn:El; [|discriminate]. cbn in E. inversion E; subst.
    cbn. constructor; [apply H; [left; reflexivity|exact Ef]|].
    apply IH; [reflexivity|]. intros x b' Hx. apply H. right. exact Hx.
Qed.

Lemma copy_spec {V} src dst n (m : mem V) x : src <> dst -> holds m src x -> zlen x = n -> n <= zlen (m dst) ->
  exists m', copy_c src dst n m = Some m' /\ only m m' dst /\ holds m' dst x.
Proof.
  intros Hne Hx Hn Hd. pose proof (zlen_nonneg x). destruct x as [|d x0] eqn:E.
  { rewrite zlen_nil in Hn. exists m. unfold copy_c. rewrite for_0 by lia.
    split; [reflexivity|]. split; [apply only_refl|]. exists (m dst). reflexivity. }
  rewrite <- E in *. unfold copy_c.
  destruct (fill_holds n (fun k m => v <- rd m src k ;; wr m dst k v) (nthZ d x) dst m) as (m' & E1 & O & Hh); [lia|lia| |].
  - intros k m1 Hk [_ O] _ _. rewrite (holds_rd_nthZ d m1 src x k); [reflexivity| |lia].
    eapply holds_eq; [|exact Hx]. apply O. exact Hne.
  - exists m'. split; [exact E1|]. split; [exact O|]. rewrite <- Hn in Hh. rewrite <- tab_nthZ in Hh. exact Hh.
Qed.

(** What the generated code needs of an order and an allocation of arrays; the
    result of [tri_topo] has it, and so has what the optimiser makes of it. *)
Record runnable (g : graph) (s : schedule) : Prop := {
  rn_perm : Permutation (dnn g) (order s);
  rn_topo : topological g (order s);
  rn_paths : forall i, In i (order s) -> exists k, dget (paths s) i = Some k /\ (k < max_path s)%nat;
  rn_keep : forall l1 p l2 n l3 c b,
     order s = l1 ++ p :: l2 ++ n :: l3 -> In c l3 -> In p (previous_layer g c) ->
     output_str s p = Some b ->
     (forall k, dget (paths s) n = Some k -> b <> Out k) /\
     (forall k, dget (csts s) n = Some k -> b <> Cst k);
  rn_saved : forall p, In p (order s) ->
     ((exists k, dget (csts s) p = Some k) <-> (1 < length (next_layer g p))%nat);
  rn_inplace : forall n p, In n (order s) -> previous_layer g n = [p] -> next_layer g p = [n] ->
     exists k, dget (paths s) p = Some k /\ dget (paths s) n = Some k;
  rn_nonempty : order s <> []
}.

Lemma tri_topo_runnable g s : linked g -> acyclic g -> no_repeated_input g -> constants_are_sources g ->
  no_constant_expression g -> tri_topo g = Some s -> runnable g s.
Proof.
  intros HL HA HR HC HX HS. pose proof (tri_topo_is_good g s HL HA HR HC HX HS) as G. constructor.
  - apply G.
  - apply G.
  - intros i Hi. apply (gs_paths_dom g s G) in Hi as [k Hk]. exists k. split; [exact Hk|]. apply (gs_paths_lt g s G i k Hk).
  - apply (tri_topo_readable g s HL HA HR HC HX HS).
  - apply (gs_cst_dom g s G).
  - intros n p Hn Ep En. apply (inplace_path g s n p HS Hn Ep). rewrite En. intros q [<-|[]]. reflexivity.
  - destruct (tri_topo_some_nonconst g s HL HA HS) as (l & Hl & _). intros E.
    pose proof (Permutation_in l (gs_perm g s G) Hl) as H. rewrite E in H. exact H.
Qed.

Section Net.
  Context {V : Type} (net : network V) (s : schedule).
  Let g := net_graph net.
  Hypothesis HL : linked g.
  Hypothesis HA : acyclic g.
  Hypothesis G : runnable g s.

  Lemma in_order n : In n (order s) <-> In n (dnn g).
  Proof. split; apply Permutation_in; [symmetry|]; apply (rn_perm g s G). Qed.

  Lemma order_nodup : NoDup (order s).
  Proof. eapply Permutation_NoDup; [apply (rn_perm g s G)|apply HL]. Qed.

  Lemma prev_in_order n p : In n (order s) -> In p (previous_layer g n) -> In p (order s).
  Proof. intros Hn Hp. apply in_order. eapply (links_closed g HL); [apply in_order; exact Hn|right; exact Hp]. Qed.

  Lemma output_str_some p : In p (order s) -> exists b, output_str s p = Some b.
  Proof.
    intros H. destruct (rn_paths g s G p H) as (k & E & _). unfold output_str. rewrite E.
    destruct (dget (csts s) p); eauto.
  Qed.

  Lemma output_str_kind p b : output_str s p = Some b -> (exists k, b = Out k) \/ (exists k, b = Cst k).
  Proof.
    unfold output_str. destruct (dget (csts s) p); [intros E; inversion E; eauto|].
    destruct (dget (paths s) p); [|discriminate]. intros E; inversion E; eauto.
  Qed.

  Lemma sources_some n : In n (order s) -> exists srcs, sources net s n = Some srcs.
  Proof.
    intros Hn. unfold sources. fold g. destruct (previous_layer g n) as [|p ps] eqn:E; [eauto|].
    apply all_some_total. intros x Hx. apply output_str_some. apply (prev_in_order n); [exact Hn|]. rewrite E. exact Hx.
  Qed.

  Context (in_size : Z).
  Hypothesis HK : layer_correct net s in_size.

  Lemma path_of n : In n (order s) -> exists k, dget (paths s) n = Some k /\ (k < max_path s)%nat.
  Proof. apply (rn_paths g s G). Qed.

  Section Run.
    Context (x : list V) (val : nat -> list V).
    Hypothesis Hx : zlen x = in_size.
    Hypothesis Hval : evaluates net x val.

    (** Sizes of the values. *)
    Lemma val_size : forall l1 l2, order s = l1 ++ l2 -> forall n, In n l1 -> zlen (val n) = size net n.
    Proof.
      intros l1. induction l1 as [|n l1 IH] using rev_ind; intros l2 E m Hm; [destruct Hm|].
      apply in_app_or in Hm. destruct Hm as [Hm|[<-|[]]].
      - apply (IH (n :: l2)); [rewrite E, <- app_assoc; reflexivity|exact Hm].
      - assert (Hn : In n (order s)) by (rewrite E; apply in_or_app; left; apply in_or_app; right; left; reflexivity).
        destruct (sources_some n Hn) as [srcs Es]. destruct (path_of n Hn) as (k & Ek & _).
        specialize (HK n srcs k Hn Es Ek). rewrite (Hval n) by (apply in_order; exact Hn). fold g in HK |- *.
        destruct (previous_layer g n) as [|p ps] eqn:Ep.
        + apply (HK x Hx).
        + apply HK. rewrite map_map. apply map_ext_in. intros q Hq. fold g in Ep. rewrite <- Ep in Hq.
          apply (IH (n :: l2)); [rewrite E, <- app_assoc; reflexivity|].
          eapply (rn_topo g s G l1 n l2); [rewrite E, <- app_assoc; reflexivity|exact Hq].
    Qed.

    Lemma val_size' n : In n (order s) -> zlen (val n) = size net n.
    Proof. apply (val_size (order s) []). rewrite app_nil_r. reflexivity. Qed.

    (** The memory after the layers of [l1]: lengths kept, input intact, every
        tensor with a later reader available. *)
    Definition inv (l1 l2 : list nat) (m0 m : mem V) : Prop :=
      (forall b, zlen (m b) = zlen (m0 b)) /\ m NnIn = m0 NnIn /\
      (forall p b c, In p l1 -> In c l2 -> In p (previous_layer g c) -> output_str s p = Some b -> holds m b (val p)).

    Lemma step l1 n l2 m0 m : order s = l1 ++ n :: l2 -> declared net s m0 -> holds m0 NnIn x ->
      inv l1 (n :: l2) m0 m ->
      exists m' k, run_layer net s m n = Some m' /\ inv (l1 ++ [n]) l2 m0 m' /\
        dget (paths s) n = Some k /\ holds m' (Out k) (val n).
    Proof.
      intros E D Hin (I1 & I2 & I3).
      assert (Hn : In n (order s)) by (rewrite E; apply in_or_app; right; left; reflexivity).
      destruct (sources_some n Hn) as [srcs Es]. destruct (path_of n Hn) as (k & Ek & Lk).
      assert (Hsrc : Forall (fun q => holds m (fst q) (snd q))
         (match previous_layer g n with [] => [(NnIn, x)] | ps => combine srcs (map val ps) end)).
      { pose proof Es as Es'. unfold sources in Es'. fold g in Es'.
        destruct (previous_layer g n) as [|p ps] eqn:Ep.
        - constructor; [|constructor]. cbn [fst snd]. eapply holds_eq; [exact I2|exact Hin].
        - rewrite <- Ep in *.
          apply (all_some_combine (output_str s) val (fun q => holds m (fst q) (snd q)) _ _ Es').
          intros q b Hq Eb. cbn [fst snd]. apply (I3 q b n); auto; [|left; reflexivity].
          eapply (rn_topo g s G); eauto. }
      assert (Hok : zlen (val n) = size net n /\ exists m1, code net n srcs (Out k) m = Some m1 /\ holds m1 (Out k) (val n) /\
                (forall b, zlen (m1 b) = zlen (m b)) /\ (forall b, b <> Temp -> b <> Out k -> m1 b = m b)).
      { split; [apply val_size'; exact Hn|].
        pose proof (HK n srcs k Hn Es Ek) as HKn. rewrite (Hval n) by (apply in_order; exact Hn). fold g in HKn |- *.
        assert (A1 : temp_size net s <= zlen (m Temp)) by (rewrite I1, D; cbn [array_size]; lia).
        assert (A2 : path_size net s <= zlen (m (Out k))).
        { rewrite I1, D. cbn [array_size]. destruct (Nat.ltb_spec k (max_path s)); lia. }
        destruct (previous_layer g n) as [|p ps] eqn:Ep.
        - destruct (HKn x Hx) as [_ O]. apply O; assumption.
        - destruct (HKn (map val (p :: ps))) as [_ O].
          + rewrite map_map. apply map_ext_in. intros q Hq. apply val_size'. apply (prev_in_order n); [exact Hn|].
            rewrite Ep. exact Hq.
          + apply O; assumption. }
      destruct Hok as (Zn & m1 & E1 & H1 & L1 & O1).
      unfold run_layer. rewrite Es. cbn [bind]. rewrite Ek. cbn [bind]. rewrite E1. cbn [bind].
      assert (HO : forall p b c, In p l1 -> In c l2 -> In p (previous_layer g c) -> output_str s p = Some b ->
                   b <> Out k /\ b <> Temp /\ forall kc, dget (csts s) n = Some kc -> b <> Cst kc).
      { intros p b c Hp Hc Hpc Hb. apply in_split in Hp as (la & lb & ->).
        destruct (rn_keep g s G la p lb n l2 c b) as [R1 R2]; auto; [rewrite E, <- app_assoc; reflexivity|].
        split; [apply R1; exact Ek|]. split; [|exact R2].
        destruct (output_str_kind p b Hb) as [[k' ->]|[k' ->]]; discriminate. }
      destruct (dget (csts s) n) as [kc|] eqn:Ec.
      - destruct (copy_spec (Out k) (Cst kc) (size net n) m1 (val n)) as (m2 & E2 & O2 & H2); auto; [discriminate| |].
        { rewrite L1, I1, D. cbn [array_size]. unfold cst_size. apply max_list_le.
          apply in_map_iff. exists (n, kc). split; [reflexivity|]. apply filter_In. split; [apply dget_In; exact Ec|].
          cbn. apply Nat.eqb_refl. }
        exists m2, k. split; [exact E2|]. destruct O2 as [O2l O2].
        assert (HOut : holds m2 (Out k) (val n)) by (eapply holds_eq; [apply O2; discriminate|exact H1]).
        split; [|split; [first [exact Ek|reflexivity]|exact HOut]]. split; [|split].
        + intros b. destruct (bname_eq_dec b (Cst kc)) as [->|Nb]; [rewrite O2l|rewrite O2 by exact Nb]; rewrite L1; apply I1.
        + rewrite O2 by discriminate. rewrite O1 by discriminate. exact I2.
        + intros p b c Hp Hc Hpc Hb. apply in_app_or in Hp. destruct Hp as [Hp|[<-|[]]].
          * destruct (HO p b c Hp Hc Hpc Hb) as (N1 & N2 & N3).
            eapply holds_eq; [|apply (I3 p b c); auto; right; exact Hc].
            rewrite O2 by (apply N3; reflexivity). apply O1; assumption.
          * unfold output_str in Hb. rewrite Ec in Hb. inversion Hb; subst. exact H2.
      - exists m1, k. split; [reflexivity|]. split; [|split; [first [exact Ek|reflexivity]|exact H1]]. split; [|split].
        + intros b. rewrite L1. apply I1.
        + rewrite O1 by discriminate. exact I2.
        + intros p b c Hp Hc Hpc Hb. apply in_app_or in Hp. destruct Hp as [Hp|[<-|[]]].
          * destruct (HO p b c Hp Hc Hpc Hb) as (N1 & N2 & _).
            eapply holds_eq; [apply O1; assumption|]. apply (I3 p b c); auto. right. exact Hc.
          * unfold output_str in Hb. rewrite Ec, Ek in Hb. inversion Hb; subst. exact H1.
    Qed.

    Lemma run_prefix l2 : forall l1 m0 m, order s = l1 ++ l2 -> l2 <> [] -> declared net s m0 -> holds m0 NnIn x ->
      inv l1 l2 m0 m ->
      exists m' k, run_layers net s l2 m = Some m' /\ (forall b, zlen (m' b) = zlen (m0 b)) /\ m' NnIn = m0 NnIn /\
        dget (paths s) (last (order s) O) = Some k /\ holds m' (Out k) (val (last (order s) O)).
    Proof.
      induction l2 as [|n l2 IH]; intros l1 m0 m E Hne D Hin I; [congruence|]. clear Hne.
      destruct (step l1 n l2 m0 m E D Hin I) as (m1 & k & E1 & I1 & Ek & Hk).
      cbn [run_layers]. rewrite E1. cbn [bind]. destruct l2 as [|n2 l2].
      - exists m1, k. cbn [run_layers]. destruct I1 as (A1 & A2 & _).
        assert (EL : last (order s) O = n) by (rewrite E; apply last_last). rewrite EL. auto.
      - apply (IH (l1 ++ [n]) m0 m1); auto; [rewrite E, <- app_assoc; reflexivity|discriminate].
    Qed.
  End Run.

  Hypothesis HO : output_correct net s.

  Lemma inference_ok m x val :
    declared net s m -> holds m NnIn x -> zlen x = in_size -> evaluates net x val ->
    exists m', inference net s m = Some m' /\ m' NnOut = post net (val (last (order s) O)) /\
      declared net s m' /\ m' NnIn = m NnIn.
  Proof.
    intros D Hin Hx Hval.
    destruct (order s) as [|n0 l0] eqn:E0.
    { exfalso. exact (rn_nonempty g s G E0). }
    destruct (run_prefix x val Hx Hval (order s) [] m m) as (m1 & k & E1 & L1 & N1 & Ek & Hk); auto.
    { rewrite E0. discriminate. }
    { split; [reflexivity|]. split; [reflexivity|]. intros p b c []. }
    destruct (HO k m1 (val (last (order s) O))) as (m2 & E2 & H2 & O2); auto.
    { apply (val_size' x val Hx Hval). rewrite E0. destruct l0 as [|a l0]; [left; reflexivity|].
      rewrite (app_removelast_last O (l := n0 :: a :: l0)) at 2 by discriminate.
      apply in_or_app. right. left. reflexivity. }
    { rewrite L1, D. reflexivity. }
    exists m2. unfold inference. rewrite E1. cbn [bind]. rewrite Ek. cbn [bind]. rewrite E0 in *.
    split; [exact E2|]. split; [exact H2|]. split.
    - intros b. rewrite (only_zlen m1 m2 NnOut b O2), L1. apply D.
    - destruct O2 as [_ O2]. rewrite O2 by discriminate. exact N1.
  Qed.

  (** ** The Python inference *)
  Lemma iget_cons (d : @inner V) k v k' : iget ((k, v) :: d) k' = if Nat.eqb k' k then Some v else iget d k'.
  Proof. reflexivity. Qed.

  Lemma publish_spec n out : forall succs (o : @outer V),
    (forall c, In c succs -> exists d, o c = Some d) ->
    exists o', publish o n out succs = Some o' /\
      (forall c d, o c = Some d -> exists d', o' c = Some d' /\
          (In c succs -> iget d' n = Some out) /\ (forall p, p <> n -> iget d' p = iget d p) /\
          (~ In c succs -> d' = d)) /\
      (forall c, o c = None -> o' c = None).
  Proof.
    induction succs as [|c cs IH]; intros o H.
    - exists o. split; [reflexivity|]. split; [|auto]. intros c d Hd. exists d. split; [exact Hd|]. split; [intros []|auto].
    - destruct (H c (or_introl eq_refl)) as [d Hd]. cbn [publish]. rewrite Hd. cbn [bind].
      destruct (IH (oset o c (Some ((n, out) :: d)))) as (o' & E & P1 & P2).
      { intros c' Hc'. unfold oset. destruct (Nat.eqb_spec c' c); [eauto|]. apply H. right. exact Hc'. }
      exists o'. split; [exact E|]. split.
      + intros c' d' Hd'. destruct (Nat.eq_dec c' c) as [->|Nc].
        * rewrite Hd in Hd'. inversion Hd'; subst d'.
          destruct (P1 c ((n, out) :: d)) as (d2 & E2 & Q1 & Q2 & Q3); [unfold oset; rewrite Nat.eqb_refl; reflexivity|].
          exists d2. split; [exact E2|]. split; [|split].
          -- intros _. destruct (in_dec Nat.eq_dec c cs) as [Hin|Hin]; [auto|].
             rewrite (Q3 Hin). cbn. rewrite Nat.eqb_refl. reflexivity.
          -- intros p Hp. rewrite (Q2 p Hp). cbn. destruct (Nat.eqb_spec p n); [congruence|reflexivity].
          -- intros Hn. exfalso. apply Hn. left. reflexivity.
        * destruct (P1 c' d') as (d2 & E2 & Q1 & Q2 & Q3).
          { unfold oset. destruct (Nat.eqb_spec c' c); [congruence|exact Hd']. }
          exists d2. split; [exact E2|]. split; [|split].
          -- intros [->|Hc]; [congruence|auto].
          -- exact Q2.
          -- intros Hn. apply Q3. intros Hc. apply Hn. right. exact Hc.
      + intros c' Hc'. apply P2. unfold oset. destruct (Nat.eqb_spec c' c) as [->|]; [congruence|exact Hc'].
  Qed.

  Section Py.
    Context (x : list V) (val : nat -> list V).
    Hypothesis Hval : evaluates net x val.

    Definition pinv (l1 l2 : list nat) (o : @outer V) : Prop :=
      (forall n, ~ In n l2 -> o n = None) /\
      forall n, In n l2 -> exists d, o n = Some d /\
        (In n (previous_layer g n) \/ iget d n = Some (pre net x)) /\
        (forall p, In p l1 -> In p (previous_layer g n) -> iget d p = Some (val p)) /\
        (forall p, In p (order s) -> ~ In p l1 -> p <> n -> iget d p = None).

    Lemma no_self n : In n (order s) -> ~ In n (previous_layer g n).
    Proof.
      intros Hn Hp. pose proof HA as [rank Hr].
      assert (In n (next_layer g n)) by (apply (linked_In g n n); auto; apply in_order; exact Hn).
      specialize (Hr n n ltac:(apply in_order; exact Hn) H). lia.
    Qed.

    Lemma py_step_ok l1 n l2 o out0 : order s = l1 ++ n :: l2 -> pinv l1 (n :: l2) o ->
      exists o', py_step net n (o, out0) = Some (o', val n) /\ pinv (l1 ++ [n]) l2 o'.
    Proof.
      intros E [P0 P].
      assert (Hn : In n (order s)) by (rewrite E; apply in_or_app; right; left; reflexivity).
      destruct (P n (or_introl eq_refl)) as (d & Ed & D1 & D2 & D3).
      assert (Hpl : forall p, In p (previous_layer g n) -> In p l1).
      { intros p Hp. eapply (rn_topo g s G); eauto. }
      unfold py_step. cbn [fst]. rewrite Ed. cbn [bind]. fold g.
      replace (existsb _ (previous_layer g n)) with false.
      2:{ symmetry. apply not_true_iff_false. intros H. apply existsb_exists in H as (p & Hp & Hq).
          rewrite (D2 p) in Hq; auto. discriminate. }
      assert (EG : gather_inputs net o n = Some (match previous_layer g n with [] => [pre net x] | ps => map val ps end)).
      { unfold gather_inputs. rewrite Ed. cbn [bind]. fold g. destruct (previous_layer g n) as [|p ps] eqn:Ep.
        - destruct D1 as [[]|D1]. rewrite D1. reflexivity.
        - rewrite <- Ep. rewrite (all_some_map (iget d) val); [reflexivity|].
          intros q Hq. rewrite Ep in Hq. apply D2; [apply Hpl; exact Hq|exact Hq]. }
      rewrite EG. cbn [bind]. pose proof (Hval n ltac:(apply in_order; exact Hn)) as Ev. fold g in Ev. rewrite <- Ev.
      assert (ND : ~ In n l2 /\ NoDup l2).
      { pose proof order_nodup as ND. rewrite E in ND. apply NoDup_remove in ND as [ND1 ND2].
        split; [intros H; apply ND2; apply in_or_app; right; exact H|].
        clear -ND1. induction l1; [exact ND1|inversion ND1; auto]. }
      assert (Hnext : forall c, In c (next_layer g n) -> In c l2).
      { intros c Hc. assert (Hco : In c (order s)).
        { apply in_order. eapply (links_closed g HL); [apply in_order; exact Hn|left; exact Hc]. }
        assert (Hpc : In n (previous_layer g c)) by (apply (linked_In g n c); auto; apply in_order; assumption).
        apply in_split in Hco as (la & lb & Ec). pose proof (rn_topo g s G la c lb Ec n Hpc) as Hla.
        (* c after n *)
        destruct (in_dec Nat.eq_dec c l2) as [H|H]; [exact H|]. exfalso.
        rewrite E in Ec. apply in_split in Hla as (la1 & la2 & ->).
        rewrite <- app_assoc in Ec. cbn in Ec.
        assert (la1 = l1 /\ la2 ++ c :: lb = l2) as [_ <-].
        { pose proof order_nodup as NDo. rewrite E in NDo. destruct (split_unique l1 la1 n l2 _ NDo Ec). auto. }
        apply H. apply in_or_app. right. left. reflexivity. }
      destruct (publish_spec n (val n) (next_layer g n) o) as (o1 & E1 & Q1 & Q2).
      { intros c Hc. destruct (P c) as (dc & Edc & _); [right; apply Hnext; exact Hc|]. eauto. }
      rewrite E1. cbn [bind]. eexists. split; [reflexivity|]. split.
      - intros c Hc. unfold oset. destruct (Nat.eqb_spec c n); [reflexivity|]. apply Q2. apply P0.
        intros [->|H]; [congruence|auto].
      - intros c Hc. assert (c <> n) by (intros ->; tauto).
        unfold oset. destruct (Nat.eqb_spec c n); [congruence|].
        destruct (P c (or_intror Hc)) as (dc & Edc & C1 & C2 & C3).
        destruct (Q1 c dc Edc) as (d' & Ed' & R1 & R2 & R3). exists d'. split; [exact Ed'|].
        assert (Hco : In c (order s)) by (rewrite E; apply in_or_app; right; right; exact Hc).
        split; [|split].
        + destruct C1 as [C1|C1]; [left; exact C1|]. right. rewrite (R2 c) by auto. exact C1.
        + intros p Hp Hpc. apply in_app_or in Hp. destruct (Nat.eq_dec p n) as [->|Np].
          * apply R1. apply (linked_In g n c); auto; apply in_order; assumption.
          * rewrite (R2 p Np). destruct Hp as [Hp|[->|[]]]; [auto|congruence].
        + intros p Hp Hpl1 Hpc. destruct (Nat.eq_dec p n) as [->|Np].
          * exfalso. apply Hpl1. apply in_or_app. right. left. reflexivity.
          * rewrite (R2 p Np). apply C3; auto. intros H'. apply Hpl1. apply in_or_app. left. exact H'.
    Qed.

    Lemma py_loop_ok l2 : forall l1 o out0, order s = l1 ++ l2 -> pinv l1 l2 o ->
      exists o', py_loop net l2 (o, out0) = Some (o', match l2 with [] => out0 | _ => val (last l2 O) end).
    Proof.
      induction l2 as [|n l2 IH]; intros l1 o out0 E P; [exists o; reflexivity|].
      destruct (py_step_ok l1 n l2 o out0 E P) as (o1 & E1 & P1). cbn [py_loop]. rewrite E1. cbn [bind].
      destruct (IH (l1 ++ [n]) o1 (val n)) as (o2 & E2); [rewrite E, <- app_assoc; reflexivity|exact P1|].
      exists o2. rewrite E2. destruct l2; reflexivity.
    Qed.

    Lemma compute_inference_ok : compute_inference net s x = Some (post net (val (last (order s) O))).
    Proof.
      unfold compute_inference.
      destruct (py_loop_ok (order s) [] (fun i => if existsb (Nat.eqb i) (order s) then Some [(i, pre net x)] else None) []) as (o & E).
      - reflexivity.
      - split.
        + intros n Hn. destruct (existsb (Nat.eqb n) (order s)) eqn:Ex; [|reflexivity].
          apply existsb_exists in Ex as (y & Hy & Ey). apply Nat.eqb_eq in Ey. subst. tauto.
        + intros n Hn. replace (existsb (Nat.eqb n) (order s)) with true.
          2:{ symmetry. apply existsb_exists. exists n. split; [exact Hn|apply Nat.eqb_refl]. }
          exists [(n, pre net x)]. split; [reflexivity|]. split; [right; cbn; rewrite Nat.eqb_refl; reflexivity|].
          split; [intros p []|]. intros p _ _ Hpn. cbn. destruct (Nat.eqb_spec p n); [congruence|reflexivity].
      - rewrite E. cbn [bind snd]. destruct (order s) as [|a l] eqn:E0; [|reflexivity].
        exfalso. exact (rn_nonempty g s G E0).
    Qed.
  End Py.

  (** The valuation exists and is unique. *)
  Definition vset (val : nat -> list V) (n : nat) (v : list V) : nat -> list V :=
    fun i => if Nat.eqb i n then v else val i.
  Fixpoint eval_list (x : list V) (l : list nat) (val : nat -> list V) : nat -> list V :=
    match l with
    | [] => val
    | n :: l' => eval_list x l' (vset val n (forward net n (match previous_layer g n with [] => [pre net x] | ps => map val ps end)))
    end.

  Lemma eval_list_other x l : forall val i, ~ In i l -> eval_list x l val i = val i.
  Proof.
    induction l as [|n l IH]; intros val i Hi; [reflexivity|]. cbn. rewrite IH by (intros H; apply Hi; right; exact H).
    unfold vset. destruct (Nat.eqb_spec i n) as [->|]; [exfalso; apply Hi; left; reflexivity|reflexivity].
  Qed.

  Lemma eval_list_eq x l2 : forall l1 val, order s = l1 ++ l2 ->
    forall n, In n l2 -> eval_list x l2 val n =
      forward net n (match previous_layer g n with [] => [pre net x] | ps => map (eval_list x l2 val) ps end).
  Proof.
    induction l2 as [|a l2 IH]; intros l1 val E n Hn; [destruct Hn|].
    assert (ND : NoDup (a :: l2)).
    { pose proof order_nodup as ND. rewrite E in ND. clear -ND. induction l1; [exact ND|inversion ND; auto]. }
    inversion ND as [|? ? NA ND2]; subst. cbn [eval_list]. destruct Hn as [->|Hn].
    - rewrite eval_list_other by exact NA. unfold vset at 1. rewrite Nat.eqb_refl.
      destruct (previous_layer g n) as [|p ps] eqn:Ep; [reflexivity|]. f_equal. apply map_ext_in. intros q Hq.
      assert (Hl1 : In q l1) by (eapply (rn_topo g s G l1 n l2 E); rewrite Ep; exact Hq).
      assert (Nq : ~ In q (n :: l2)).
      { pose proof order_nodup as NDo. rewrite E in NDo. clear -NDo Hl1. intros H.
        induction l1; [destruct Hl1|]. inversion NDo; subst. destruct Hl1 as [->|Hl1]; [|auto].
        apply H2. apply in_or_app. right. exact H. }
      rewrite eval_list_other by (intros H; apply Nq; right; exact H).
      unfold vset. destruct (Nat.eqb_spec q n) as [->|]; [exfalso; apply Nq; left; reflexivity|reflexivity].
    - apply (IH (l1 ++ [a])); [rewrite E, <- app_assoc; reflexivity|exact Hn].
  Qed.

  Lemma evaluates_exists x : exists val, evaluates net x val.
  Proof.
    exists (eval_list x (order s) (fun _ => [])). intros n Hn. apply (eval_list_eq x (order s) []); [reflexivity|].
    apply in_order. exact Hn.
  Qed.

  Lemma evaluates_unique x v1 v2 : evaluates net x v1 -> evaluates net x v2 -> forall n, In n (dnn g) -> v1 n = v2 n.
  Proof.
    intros E1 E2.
    assert (P : forall l1 l2, order s = l1 ++ l2 -> forall n, In n l1 -> v1 n = v2 n).
    { intros l1. induction l1 as [|a l1 IH] using rev_ind; intros l2 E n Hn; [destruct Hn|].
      apply in_app_or in Hn. destruct Hn as [Hn|[<-|[]]].
      - apply (IH (a :: l2)); [rewrite E, <- app_assoc; reflexivity|exact Hn].
      - assert (Ha : In a (dnn g)) by (apply in_order; rewrite E; apply in_or_app; left; apply in_or_app; right; left; reflexivity).
        rewrite (E1 a Ha), (E2 a Ha). fold g. destruct (previous_layer g a) as [|p ps] eqn:Ep; [reflexivity|].
        f_equal. apply map_ext_in. intros q Hq. apply (IH (a :: l2)); [rewrite E, <- app_assoc; reflexivity|].
        eapply (rn_topo g s G l1 a l2); [rewrite E, <- app_assoc; reflexivity|]. rewrite Ep. exact Hq. }
    intros n Hn. apply (P (order s) []); [rewrite app_nil_r; reflexivity|]. apply in_order. exact Hn.
  Qed.
End Net.
