(** * Removing a layer that is the only reader of its only operand. *)
From Coq Require Import List Arith Bool Lia Permutation.
Import ListNotations.
From Verif Require Import CMem Graph GraphSpec GraphProofs GraphProofs4 Net NetProofs.

Definition replace_one (n p : nat) (l : list nat) : list nat := map (fun x => if Nat.eqb x n then p else x) l.

Lemma replace_one_In n p l x : In x (replace_one n p l) <-> (x = p /\ In n l) \/ (x <> n /\ In x l) \/ (x = p /\ In p l).
Proof.
  unfold replace_one. rewrite in_map_iff. split.
  - intros (y & E & Hy). destruct (Nat.eqb_spec y n) as [EQ|NE]; [subst y; left; auto|]. subst x. right. left. auto.
  - intros [[-> H]|[[NE H]|[-> H]]].
    + exists n. rewrite Nat.eqb_refl. auto.
    + exists x. destruct (Nat.eqb_spec x n); [congruence|auto].
    + destruct (Nat.eq_dec p n) as [->|NE]; [exists n; rewrite Nat.eqb_refl; auto|].
      exists p. destruct (Nat.eqb_spec p n); [congruence|auto].
Qed.
Lemma replace_one_id n p l : ~ In n l -> replace_one n p l = l.
Proof.
  intros H. unfold replace_one. rewrite <- (map_id l) at 2. apply map_ext_in. intros x Hx.
  destruct (Nat.eqb_spec x n) as [->|]; [contradiction|reflexivity].
Qed.
Lemma count_replace n p a l : a <> n -> p <> n ->
  count_occ Nat.eq_dec (replace_one n p l) a =
  if Nat.eqb a p then count_occ Nat.eq_dec l n + count_occ Nat.eq_dec l p else count_occ Nat.eq_dec l a.
Proof.
  intros Ha Hp. induction l as [|x l IH]; [destruct (a =? p); reflexivity|].
  cbn [replace_one map count_occ]. unfold replace_one in IH.
  destruct (Nat.eqb_spec x n) as [->|Nx].
  - destruct (Nat.eq_dec p a) as [->|Npa].
    + rewrite IH. rewrite Nat.eqb_refl. destruct (Nat.eq_dec n n); [|congruence]. destruct (Nat.eq_dec n a); [congruence|]. lia.
    + rewrite IH. destruct (Nat.eqb_spec a p); [congruence|]. destruct (Nat.eq_dec n a); [congruence|]. reflexivity.
  - destruct (Nat.eq_dec x a) as [->|Nxa].
    + rewrite IH. destruct (Nat.eqb_spec a p) as [->|].
      * destruct (Nat.eq_dec p n); [congruence|]. destruct (Nat.eq_dec p p); [|congruence]. lia.
      * reflexivity.
    + rewrite IH. destruct (Nat.eqb_spec a p) as [->|]; [|reflexivity].
      destruct (Nat.eq_dec x n); [congruence|]. destruct (Nat.eq_dec x p); [congruence|]. reflexivity.
Qed.

Definition adjacent (l : list nat) (a b : nat) : Prop := exists u v, l = u ++ a :: b :: v.
Definition chains_adjacent (g : graph) (inp : nat) : Prop := forall a b, In a (dnn g) -> In b (dnn g) ->
  previous_layer g b = [a] -> next_layer g a = [b] -> a <> inp -> adjacent (dnn g) a b.

Lemma shrink_adjacent p n l2 a b : forall l1, a <> p -> a <> n -> b <> n -> b <> p ->
  adjacent (l1 ++ p :: n :: l2) a b -> adjacent (l1 ++ p :: l2) a b.
Proof.
  intros l1 A1 A2 A3 A4 (u & v & E).
  assert (K : (exists w, l1 = u ++ a :: b :: w) \/ (exists w, l2 = w ++ a :: b :: v)).
  { revert l1 E. induction u as [|x u IH]; intros l1 E.
    - destruct l1 as [|y l1]; [injection E; intros; subst; congruence|]. injection E as -> E.
      destruct l1 as [|z l1]; [injection E; intros; subst; congruence|]. injection E as -> E. left. exists l1. reflexivity.
    - destruct l1 as [|y l1].
      + injection E as -> E. right. destruct u as [|y u]; [injection E; intros; subst; congruence|].
        injection E as -> E. exists u. exact E.
      + injection E as -> E. destruct (IH l1 E) as [[w ->]|[w ->]]; [left; exists w; reflexivity|right; exists w; reflexivity]. }
  destruct K as [[w ->]|[w ->]].
  - exists u, (w ++ p :: l2). rewrite <- app_assoc. reflexivity.
  - exists (l1 ++ p :: w), v. rewrite <- app_assoc. reflexivity.
Qed.

(** [g'] is [g] without [n], whose readers now read [p]. *)
Record fused (g g' : graph) (l1 : list nat) (p n : nat) (l2 : list nat) : Prop := {
  fu_dnn : dnn g = l1 ++ p :: n :: l2;
  fu_dnn' : dnn g' = l1 ++ p :: l2;
  fu_prev : forall c, In c (dnn g') -> previous_layer g' c = replace_one n p (previous_layer g c);
  fu_next : next_layer g' p = next_layer g n;
  fu_next_o : forall a, In a (dnn g') -> a <> p -> next_layer g' a = next_layer g a;
  fu_const : forall a, In a (dnn g') -> is_constant g' a = is_constant g a
}.

Section Fused.
  Context (g g' : graph) (l1 : list nat) (p n : nat) (l2 : list nat).
  Hypothesis FU : fused g g' l1 p n l2.
  Hypothesis HL : linked g.
  Hypothesis HA : acyclic g.
  Hypothesis HR : no_repeated_input g.
  Hypothesis HP : previous_layer g n = [p].
  Hypothesis HN : next_layer g p = [n].

  Lemma fu_nodup : NoDup (l1 ++ p :: n :: l2).
  Proof. rewrite <- (fu_dnn _ _ _ _ _ _ FU). apply HL. Qed.
  Lemma fu_nodup' : NoDup (l1 ++ p :: l2) /\ ~ In n (l1 ++ p :: l2).
  Proof.
    pose proof fu_nodup as ND. replace (l1 ++ p :: n :: l2) with ((l1 ++ [p]) ++ n :: l2) in ND by (rewrite <- app_assoc; reflexivity).
    apply NoDup_remove in ND. rewrite <- app_assoc in ND. exact ND.
  Qed.
  Lemma fu_in a : In a (dnn g') <-> In a (dnn g) /\ a <> n.
  Proof.
    rewrite (fu_dnn _ _ _ _ _ _ FU), (fu_dnn' _ _ _ _ _ _ FU). pose proof fu_nodup' as [_ ND].
    split.
    - intros H. split; [|intros ->; contradiction]. apply in_app_or in H. apply in_or_app.
      destruct H as [H|[H|H]]; [left; exact H|right; left; exact H|right; right; right; exact H].
    - intros [H NE]. apply in_app_or in H. apply in_or_app.
      destruct H as [H|[H|[H|H]]]; [left; exact H|right; left; exact H|congruence|right; right; exact H].
  Qed.
  Lemma p_in : In p (dnn g). Proof. rewrite (fu_dnn _ _ _ _ _ _ FU). apply in_or_app. right. left. reflexivity. Qed.
  Lemma n_in : In n (dnn g). Proof. rewrite (fu_dnn _ _ _ _ _ _ FU). apply in_or_app. right. right. left. reflexivity. Qed.
  Lemma p_not_n : p <> n.
  Proof.
    pose proof fu_nodup' as [_ ND]. intros ->. apply ND. apply in_or_app. right. left. reflexivity.
  Qed.
  Lemma p_in' : In p (dnn g'). Proof. apply fu_in. split; [exact p_in|exact p_not_n]. Qed.

  (** Only [n] reads [p]. *)
  Lemma only_reader c : In c (dnn g) -> In p (previous_layer g c) -> c = n.
  Proof.
    intros Hc H. assert (In c (next_layer g p)) by (apply (linked_In g p c); auto; exact p_in).
    rewrite HN in H0. destruct H0 as [<-|[]]. reflexivity.
  Qed.
  Lemma not_both c : In c (dnn g') -> ~ In p (previous_layer g c).
  Proof. intros Hc H. apply fu_in in Hc as [Hc Nc]. apply Nc. apply only_reader; assumption. Qed.

  Lemma prev'_cases c a : In c (dnn g') -> In a (previous_layer g' c) ->
    (a = p /\ In n (previous_layer g c)) \/ (a <> n /\ a <> p /\ In a (previous_layer g c)).
  Proof.
    intros Hc H. rewrite (fu_prev _ _ _ _ _ _ FU c Hc) in H. apply replace_one_In in H.
    pose proof (not_both c Hc). destruct H as [H|[[H1 H2]|[_ H]]]; [left; exact H| |contradiction].
    right. split; [exact H1|]. split; [intros ->; contradiction|exact H2].
  Qed.

  Lemma prev'_single c a : In c (dnn g') -> previous_layer g' c = [a] ->
    (a = p /\ previous_layer g c = [n]) \/ (a <> p /\ previous_layer g c = [a]).
  Proof.
    intros Hc H. pose proof (prev'_cases c a Hc) as PC. rewrite H in PC. specialize (PC (or_introl eq_refl)).
    rewrite (fu_prev _ _ _ _ _ _ FU c Hc) in H. unfold replace_one in H.
    destruct (previous_layer g c) as [|x [|? ?]] eqn:E; try discriminate. cbn in H. injection H as H.
    destruct PC as [[-> [->|[]]]|[N1 [N2 [->|[]]]]]; auto.
  Qed.

  Lemma fused_linked : linked g'.
  Proof.
    constructor.
    - rewrite (fu_dnn' _ _ _ _ _ _ FU). apply fu_nodup'.
    - intros a c Ha Hc. rewrite (fu_prev _ _ _ _ _ _ FU c Hc).
      pose proof (proj1 (fu_in a) Ha) as [Ha1 Ha2]. pose proof (proj1 (fu_in c) Hc) as [Hc1 Hc2].
      rewrite count_replace by (auto; apply p_not_n). destruct (Nat.eqb_spec a p) as [->|NE].
      + rewrite (fu_next _ _ _ _ _ _ FU). rewrite (links_symmetric g HL n c n_in Hc1).
        rewrite <- (links_symmetric g HL p c p_in Hc1), HN. cbn. destruct (Nat.eq_dec n c); [congruence|lia].
      + rewrite (fu_next_o _ _ _ _ _ _ FU a Ha NE). apply (links_symmetric g HL); assumption.
    - intros a i Ha H. pose proof (proj1 (fu_in a) Ha) as [Ha1 Ha2]. destruct H as [H|H].
      + destruct (Nat.eq_dec a p) as [->|NE].
        * rewrite (fu_next _ _ _ _ _ _ FU) in H. apply fu_in. split; [apply (links_closed g HL n i n_in); left; exact H|].
          intros ->. destruct HA as [rank Hr]. specialize (Hr n n n_in H). lia.
        * rewrite (fu_next_o _ _ _ _ _ _ FU a Ha NE) in H. apply fu_in.
          split; [apply (links_closed g HL a i Ha1); left; exact H|]. intros ->.
          assert (In a (previous_layer g n)) by (apply (linked_In g a n); auto; exact n_in).
          rewrite HP in H0. destruct H0 as [->|[]]. congruence.
      + destruct (prev'_cases a i Ha H) as [[-> _]|(N1 & N2 & Hi)]; [exact p_in'|].
        apply fu_in. split; [|exact N1]. apply (links_closed g HL a i Ha1). right. exact Hi.
  Qed.

  Lemma fused_acyclic : acyclic g'.
  Proof.
    destruct HA as [rank Hr]. exists rank. intros a c Ha Hc. destruct (Nat.eq_dec a p) as [->|NE].
    - rewrite (fu_next _ _ _ _ _ _ FU) in Hc. assert (rank p < rank n) by (apply Hr; [exact p_in|rewrite HN; left; reflexivity]).
      pose proof (Hr n c n_in Hc). lia.
    - rewrite (fu_next_o _ _ _ _ _ _ FU a Ha NE) in Hc. apply Hr; [|exact Hc]. apply fu_in in Ha. apply Ha.
  Qed.

  Lemma fused_no_repeat : no_repeated_input g'.
  Proof.
    intros c Hc. rewrite (fu_prev _ _ _ _ _ _ FU c Hc). pose proof (not_both c Hc) as NB.
    assert (ND : NoDup (previous_layer g c)) by (apply HR; apply fu_in in Hc; apply Hc).
    unfold replace_one. revert NB ND. generalize (previous_layer g c). intros l NB ND.
    induction l as [|x l IH]; [constructor|]. inversion ND; subst. cbn [map]. constructor.
    - rewrite in_map_iff. intros (y & E & Hy). destruct (Nat.eqb_spec y n) as [Ey|Ny]; destruct (Nat.eqb_spec x n) as [Ex|Nx].
      + subst. contradiction.
      + subst. apply NB. left. reflexivity.
      + subst. apply NB. right. exact Hy.
      + subst. contradiction.
    - apply IH; [|assumption]. intros H. apply NB. right. exact H.
  Qed.

  Lemma fused_constant_sources : constants_are_sources g -> constants_are_sources g'.
  Proof.
    intros HC c Hc E. rewrite (fu_const _ _ _ _ _ _ FU c Hc) in E. rewrite (fu_prev _ _ _ _ _ _ FU c Hc).
    rewrite (HC c); [reflexivity| |exact E]. apply fu_in in Hc. apply Hc.
  Qed.

  Lemma fused_single_input inp : constants_are_sources g -> single_input g inp -> single_input g' inp.
  Proof.
    intros HC (H1 & H2 & H3 & H4).
    assert (Hin : In inp (dnn g)) by (destruct (dnn g); [discriminate|]; injection H1 as ->; left; reflexivity).
    assert (NI : inp <> n) by (intros ->; rewrite HP in H3; discriminate).
    assert (Hin' : In inp (dnn g')) by (apply fu_in; auto).
    assert (NC : is_constant g n = false).
    { destruct (is_constant g n) eqn:E; [|reflexivity]. rewrite (HC n n_in E) in HP. discriminate. }
    assert (PC : is_constant g p = false).
    { destruct (H4 n n_in ltac:(congruence) NC) as (x & Hx & Ex). rewrite HP in Hx. destruct Hx as [<-|[]]. exact Ex. }
    split; [|split; [|split]].
    - rewrite (fu_dnn' _ _ _ _ _ _ FU). rewrite (fu_dnn _ _ _ _ _ _ FU) in H1. destruct l1; exact H1.
    - rewrite (fu_const _ _ _ _ _ _ FU inp Hin'). exact H2.
    - rewrite (fu_prev _ _ _ _ _ _ FU inp Hin'), H3. reflexivity.
    - intros c Hc NE EC. rewrite (fu_const _ _ _ _ _ _ FU c Hc) in EC. pose proof (proj1 (fu_in c) Hc) as [Hc1 _].
      destruct (H4 c Hc1 NE EC) as (x & Hx & Ex). rewrite (fu_prev _ _ _ _ _ _ FU c Hc).
      destruct (Nat.eq_dec x n) as [->|Nx].
      + exists p. split; [apply replace_one_In; left; auto|]. rewrite (fu_const _ _ _ _ _ _ FU p p_in'). exact PC.
      + exists x. split; [apply replace_one_In; right; left; auto|].
        rewrite (fu_const _ _ _ _ _ _ FU x); [exact Ex|]. apply fu_in. split; [|exact Nx].
        apply (links_closed g HL c x Hc1). right. exact Hx.
  Qed.

  (** ** The order and the arrays *)
  Context (s s' : schedule).
  Hypothesis RN : runnable g s.
  Hypothesis OS : order s = l1 ++ p :: n :: l2.
  Hypothesis OS' : order s' = l1 ++ p :: l2.
  Hypothesis PS : forall a, In a (order s') -> dget (paths s') a = dget (paths s) a.
  Hypothesis CS : forall a, In a (order s') -> a <> p -> dget (csts s') a = dget (csts s) a.
  Hypothesis CP : dget (csts s') p = dget (csts s) n.
  Hypothesis MP : max_path s' = max_path s.

  Lemma in_order' a : In a (order s') <-> In a (dnn g').
  Proof. rewrite OS', (fu_dnn' _ _ _ _ _ _ FU). reflexivity. Qed.

  Definition expand (l : list nat) : list nat := flat_map (fun x => if Nat.eqb x p then [p; n] else [x]) l.
  Lemma expand_app a b : expand (a ++ b) = expand a ++ expand b.
  Proof. unfold expand. apply flat_map_app. Qed.
  Lemma expand_id l : ~ In p l -> expand l = l.
  Proof.
    intros H. induction l as [|x l IH]; [reflexivity|]. cbn. destruct (Nat.eqb_spec x p) as [->|].
    - exfalso. apply H. left. reflexivity.
    - fold (expand l). rewrite IH by (intros K; apply H; right; exact K). reflexivity.
  Qed.
  Lemma expand_in x l : In x l -> In x (expand l).
  Proof.
    intros H. unfold expand. apply in_flat_map. exists x. split; [exact H|].
    destruct (Nat.eqb_spec x p) as [->|]; left; reflexivity.
  Qed.
  Lemma in_expand x l : In x (expand l) -> In x l \/ (x = n /\ In p l).
  Proof.
    unfold expand. rewrite in_flat_map. intros (y & Hy & H). destruct (Nat.eqb_spec y p) as [->|].
    - destruct H as [<-|[<-|[]]]; auto.
    - destruct H as [<-|[]]; auto.
  Qed.
  Lemma expand_order : expand (order s') = order s.
  Proof.
    rewrite OS, OS'. rewrite expand_app. pose proof fu_nodup' as [ND _].
    apply NoDup_remove in ND as [_ ND].
    rewrite expand_id by (intros H; apply ND; apply in_or_app; left; exact H).
    cbn. rewrite Nat.eqb_refl. cbn. fold (expand l2).
    rewrite expand_id by (intros H; apply ND; apply in_or_app; right; exact H). reflexivity.
  Qed.
  Lemma order_nodup' : NoDup (order s').
  Proof. rewrite OS'. apply fu_nodup'. Qed.

  Lemma same_path : exists k, dget (paths s) p = Some k /\ dget (paths s) n = Some k.
  Proof. apply (rn_inplace g s RN n p); auto. rewrite OS. apply in_or_app. right. right. left. reflexivity. Qed.

  Lemma output_str_p : output_str s' p = output_str s n.
  Proof.
    destruct same_path as (k & E1 & E2). unfold output_str. rewrite CP, E2. rewrite PS, E1; [reflexivity|].
    apply in_order'. exact p_in'.
  Qed.
  Lemma output_str_o a : In a (order s') -> a <> p -> output_str s' a = output_str s a.
  Proof. intros Ha Na. unfold output_str. rewrite (CS a Ha Na), (PS a Ha). reflexivity. Qed.

  Lemma expand_single x : x <> p -> expand [x] = [x].
  Proof. intros H. cbn. destruct (Nat.eqb_spec x p); [congruence|reflexivity]. Qed.
  Lemma expand_p : expand [p] = [p; n].
  Proof. cbn. rewrite Nat.eqb_refl. reflexivity. Qed.

  Lemma fused_runnable : runnable g' s'.
  Proof.
    constructor.
    - rewrite OS', (fu_dnn' _ _ _ _ _ _ FU). reflexivity.
    - intros la c lb E q Hq.
      assert (Hc : In c (dnn g')) by (apply in_order'; rewrite E; apply in_or_app; right; left; reflexivity).
      assert (TT : exists la' lb', order s = la' ++ c :: lb' /\ la' = expand la).
      { exists (expand la). pose proof expand_order as EO. rewrite E, expand_app in EO.
        change (c :: lb) with ([c] ++ lb) in EO. rewrite expand_app in EO.
        destruct (Nat.eq_dec c p) as [->|NE].
        - rewrite expand_p in EO. exists (n :: expand lb). split; [symmetry; exact EO|reflexivity].
        - rewrite (expand_single c NE) in EO. exists (expand lb). split; [symmetry; exact EO|reflexivity]. }
      destruct TT as (la' & lb' & E' & ->). pose proof (rn_topo g s RN _ _ _ E') as T.
      assert (NL : ~ In n la).
      { intros H. pose proof fu_nodup' as [_ NN]. apply NN. rewrite <- OS', E. apply in_or_app. left. exact H. }
      destruct (prev'_cases c q Hc Hq) as [[-> Hn]|(N1 & N2 & Hq')].
      + apply T, in_expand in Hn. destruct Hn as [Hn|[_ Hn]]; [contradiction|exact Hn].
      + apply T, in_expand in Hq'. destruct Hq' as [Hq'|[K _]]; [exact Hq'|contradiction].
    - intros a Ha. rewrite (PS a Ha), MP. apply (rn_paths g s RN). rewrite <- expand_order. apply expand_in. exact Ha.
    - intros la a lb m lc c b E Hc Hac Hb.
      assert (EO := expand_order). rewrite E in EO.
      change (la ++ a :: lb ++ m :: lc) with (la ++ [a] ++ lb ++ [m] ++ lc) in EO. rewrite !expand_app in EO.
      pose proof order_nodup' as ND. rewrite E in ND.
      assert (Ha : In a (order s')) by (rewrite E; apply in_or_app; right; left; reflexivity).
      assert (Hm : In m (order s')).
      { rewrite E. apply in_or_app. right. right. apply in_or_app. right. left. reflexivity. }
      assert (NAM : a <> m).
      { intros ->. apply NoDup_remove in ND as [_ ND]. apply ND. apply in_or_app. right. apply in_or_app. right. left. reflexivity. }
      assert (Hc' : In c (dnn g')).
      { apply in_order'. rewrite E. apply in_or_app. right. right. apply in_or_app. right. right. exact Hc. }
      destruct (prev'_cases c a Hc' Hac) as [[-> Hn]|(N1 & N2 & Ha')].
      + rewrite output_str_p in Hb. rewrite expand_p, (expand_single m) in EO by congruence.
        destruct (rn_keep g s RN (expand la ++ [p]) n (expand lb) m (expand lc) c b) as [R1 R2]; auto.
        * rewrite <- EO. rewrite <- !app_assoc. reflexivity.
        * apply expand_in. exact Hc.
        * rewrite (PS m Hm), (CS m Hm) by congruence. split; assumption.
      + rewrite (output_str_o a Ha N2) in Hb. rewrite (expand_single a N2) in EO.
        destruct (Nat.eq_dec m p) as [->|Nm].
        * rewrite expand_p in EO. split.
          -- rewrite (PS p Hm). destruct (rn_keep g s RN (expand la) a (expand lb) p (n :: expand lc) c b) as [R1 R2]; auto.
             right. apply expand_in. exact Hc.
          -- rewrite CP. destruct (rn_keep g s RN (expand la) a (expand lb ++ [p]) n (expand lc) c b) as [R1 R2]; auto.
             ++ rewrite <- EO. rewrite <- !app_assoc. reflexivity.
             ++ apply expand_in. exact Hc.
        * rewrite (expand_single m Nm) in EO. rewrite (PS m Hm), (CS m Hm Nm).
          apply (rn_keep g s RN (expand la) a (expand lb) m (expand lc) c b); auto. apply expand_in. exact Hc.
    - intros a Ha. destruct (Nat.eq_dec a p) as [->|NE].
      + rewrite CP, (fu_next _ _ _ _ _ _ FU). apply (rn_saved g s RN). rewrite OS. apply in_or_app. right. right. left. reflexivity.
      + rewrite (CS a Ha NE), (fu_next_o _ _ _ _ _ _ FU a); [|apply in_order'; exact Ha|exact NE].
        apply (rn_saved g s RN). rewrite <- expand_order. apply expand_in. exact Ha.
    - intros c a Hc Ep En. assert (Hc' : In c (dnn g')) by (apply in_order'; exact Hc).
      assert (Hco : In c (order s)) by (rewrite <- expand_order; apply expand_in; exact Hc).
      destruct (prev'_single c a Hc' Ep) as [[-> Epc]|[NE Epc]].
      + rewrite (fu_next _ _ _ _ _ _ FU) in En. destruct (rn_inplace g s RN c n Hco Epc En) as (k & E1 & E2).
        destruct same_path as (k' & E3 & E4). exists k. rewrite (PS p), (PS c Hc) by (apply in_order'; exact p_in').
        split; [congruence|exact E2].
      + assert (Ha' : In a (dnn g')).
        { apply (links_closed g' fused_linked c a Hc'). right. rewrite Ep. left. reflexivity. }
        rewrite (fu_next_o _ _ _ _ _ _ FU a Ha' NE) in En. destruct (rn_inplace g s RN c a Hco Epc En) as (k & E1 & E2).
        exists k. rewrite (PS a), (PS c Hc) by (apply in_order'; exact Ha'). auto.
    - rewrite OS'. destruct l1; discriminate.
  Qed.

  (** Pairs stay adjacent. *)
  Lemma fused_chains inp : p <> inp -> n <> inp -> chains_adjacent g inp -> chains_adjacent g' inp.
  Proof.
    intros NI NI2 CH a b Ha Hb Ep En NA. unfold adjacent.
    pose proof (proj1 (fu_in a) Ha) as [Ha1 Ha2]. pose proof (proj1 (fu_in b) Hb) as [Hb1 Hb2].
    rewrite (fu_dnn' _ _ _ _ _ _ FU).
    destruct (prev'_single b a Hb Ep) as [[-> Epb]|[NE Epb]].
    - (* p and the only reader of n *)
      rewrite (fu_next _ _ _ _ _ _ FU) in En.
      destruct (CH n b n_in Hb1 Epb En NI2) as (u & v & E). rewrite (fu_dnn _ _ _ _ _ _ FU) in E.
      pose proof fu_nodup as ND.
      replace (l1 ++ p :: n :: l2) with ((l1 ++ [p]) ++ n :: l2) in ND, E by (rewrite <- app_assoc; reflexivity).
      destruct (split_unique (l1 ++ [p]) u n l2 (b :: v) ND E) as [_ E2].
      exists l1, v. rewrite E2. reflexivity.
    - rewrite (fu_next_o _ _ _ _ _ _ FU a Ha NE) in En.
      pose proof (CH a b Ha1 Hb1 Epb En NA) as AD. rewrite (fu_dnn _ _ _ _ _ _ FU) in AD.
      destruct (Nat.eq_dec b p) as [->|Nb]; [|apply (shrink_adjacent p n); assumption].
      destruct AD as (u & v & E). pose proof fu_nodup as ND.
      replace (u ++ a :: p :: v) with ((u ++ [a]) ++ p :: v) in E by (rewrite <- app_assoc; reflexivity).
      destruct (split_unique l1 (u ++ [a]) p (n :: l2) v ND E) as [E1 _].
      exists u, l2. rewrite E1, <- app_assoc. reflexivity.
  Qed.
End Fused.
