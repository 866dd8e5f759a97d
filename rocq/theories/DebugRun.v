(** * The debug mode on a network: proofs (Debug.v). *)
From Coq Require Import String Ascii.
From Coq Require Import ZArith List Lia Bool Permutation QArith.
Import ListNotations.
Open Scope list_scope.
Open Scope Z_scope.
From Verif Require Import CMem Tensor Num Graph GraphSpec Net NetProofs Movement LayerKinds LayerKindsProofs ModelProofs HexLit Compare Debug DebugProofs.

(** ** The targets: every layer after the input, except, in mode keras, a layer
    followed by a Softmax. *)
Fixpoint shown (keras : bool) (softmax : nat -> bool) (l : list nat) : list nat :=
  match l with
  | [] => []
  | n :: l' => (if keras && match l' with m :: _ => softmax m | [] => false end then [] else [n]) ++ shown keras softmax l'
  end.
Lemma load_targets keras softmax l : forall acc n,
  load_debug_target keras softmax l (acc ++ [n]) = Some (acc ++ shown keras softmax (n :: l)).
Proof.
  induction l as [|m l IH]; intros acc n.
  - cbn. rewrite andb_false_r. reflexivity.
  - cbn [load_debug_target]. replace (shown keras softmax (n :: m :: l)) with ((if keras && softmax m then [] else [n]) ++ shown keras softmax (m :: l)) by reflexivity.
    destruct (keras && softmax m).
    + rewrite removelast_last. destruct (acc ++ [n]) eqn:E; [destruct acc; discriminate|]. apply IH.
    + rewrite IH, <- app_assoc. reflexivity.
Qed.
Lemma load_targets_all keras softmax l :
  load_debug_target keras softmax l [] = if match l with n :: _ => keras && softmax n | [] => false end then None else Some (shown keras softmax l).
Proof.
  destruct l as [|n l]; [reflexivity|]. cbn [load_debug_target]. destruct (keras && softmax n); [reflexivity|]. apply (load_targets keras softmax l [] n).
Qed.
Lemma shown_in keras softmax l n : In n (shown keras softmax l) -> In n l.
Proof.
  induction l as [|m l IH]; [auto|]. cbn [shown]. intros H. apply in_app_or in H. destruct H as [H|H]; [|right; apply IH; exact H].
  destruct (keras && _); [destruct H|]. destruct H as [<-|[]]. left. reflexivity.
Qed.
Lemma shown_nodup keras softmax l : NoDup l -> NoDup (shown keras softmax l).
Proof.
  intros ND. induction ND as [|n l NI ND IH]; [constructor|]. cbn [shown]. destruct (keras && _); [exact IH|]. constructor; [|exact IH]. intros H. apply NI. eapply shown_in. exact H.
Qed.
Lemma filter_shown (constant : nat -> bool) keras softmax l : NoDup l -> forall t, (forall n, In n l -> existsb (Nat.eqb n) t = existsb (Nat.eqb n) (shown keras softmax l)) ->
  filter (recorded constant t) l = filter (fun n => negb (constant n)) (shown keras softmax l).
Proof.
  intros ND. induction ND as [|n l NI ND IH]; intros t HT; [reflexivity|].
  assert (EI : existsb (Nat.eqb n) (shown keras softmax l) = false).
  { apply not_true_iff_false. intros X. apply existsb_exists in X. destruct X as (m & Hm & Em). apply Nat.eqb_eq in Em. subst m. apply NI. eapply shown_in. exact Hm. }
  assert (R : filter (recorded constant t) l = filter (fun n => negb (constant n)) (shown keras softmax l)).
  { apply IH. intros m Hm. rewrite HT by (right; exact Hm). cbn [shown]. rewrite existsb_app.
    assert (N : existsb (Nat.eqb m) (if keras && match l with m0 :: _ => softmax m0 | [] => false end then [] else [n]) = false).
    { destruct (keras && _); [reflexivity|]. cbn [existsb]. destruct (Nat.eqb_spec m n) as [->|]; [contradiction|reflexivity]. }
    rewrite N. reflexivity. }
  cbn [filter]. rewrite R. unfold recorded at 1. rewrite HT by (left; reflexivity). cbn [shown]. rewrite existsb_app, EI, orb_false_r, filter_app.
  destruct (keras && _); [reflexivity|]. cbn [existsb]. rewrite Nat.eqb_refl. cbn [orb andb filter]. destruct (constant n); reflexivity.
Qed.
Lemma filter_order constant keras softmax n0 l : NoDup (n0 :: l) ->
  filter (recorded constant (shown keras softmax l)) (n0 :: l) = filter (fun n => negb (constant n)) (shown keras softmax l).
Proof.
  intros ND. inversion ND as [|? ? NI ND']; subst. cbn [filter]. unfold recorded at 1.
  replace (existsb (Nat.eqb n0) (shown keras softmax l)) with false.
  - cbn [andb]. apply filter_shown; [exact ND'|]. reflexivity.
  - symmetry. apply not_true_iff_false. intros X. apply existsb_exists in X. destruct X as (m & Hm & Em). apply Nat.eqb_eq in Em. subst m. apply NI. eapply shown_in. exact Hm.
Qed.

Section Run.
  Context {V : Type} (z : V) (net : network V) (s : schedule) (name : nat -> text) (constant : nat -> bool) (channels : nat -> option (Z * Z * Z)).
  Let g := net_graph net.
  Hypothesis HL : linked g.
  Hypothesis G : runnable g s.
  Context (in_size : Z).
  Context (targets : list nat).

  Section Py.
    Context (x : list V) (val : nat -> list V).
    Hypothesis Hval : evaluates net x val.
    Lemma py_trace l2 : forall l1 o out0 t, order s = l1 ++ l2 -> pinv net s x val l1 l2 o ->
      exists st, py_loop_debug z net name constant channels targets l2 (o, out0) t =
        Some (st, (fst t ++ map (fun n => flat z channels n (val n)) (filter (recorded constant targets) l2),
                   snd t ++ map (fun n => label (name n) n) (filter (recorded constant targets) l2))).
    Proof.
      induction l2 as [|n l2 IH]; intros l1 o out0 t E P.
      - exists (o, out0). cbn. rewrite !app_nil_r. destruct t; reflexivity.
      - destruct (py_step_ok net s HL G x val Hval l1 n l2 o out0 E P) as (o1 & E1 & P1). cbn [py_loop_debug]. rewrite E1. cbn [bind snd].
        destruct (IH (l1 ++ [n]) o1 (val n) (record z name constant channels targets n (val n) t)) as (st & E2); [rewrite E, <- app_assoc; reflexivity|exact P1|].
        exists st. rewrite E2. f_equal. f_equal. unfold record. cbn [filter]. destruct (recorded constant targets n); [|reflexivity].
        cbn [fst snd map]. rewrite <- !app_assoc. reflexivity.
    Qed.
    Lemma one_trace : one_inference z net name constant channels targets s x =
      Some (map (fun n => flat z channels n (val n)) (filter (recorded constant targets) (order s)), map (fun n => label (name n) n) (filter (recorded constant targets) (order s))).
    Proof.
      unfold one_inference.
      destruct (py_trace (order s) [] (fun i => if existsb (Nat.eqb i) (order s) then Some [(i, pre net x)] else None) [] ([], [])) as (st & E).
      - reflexivity.
      - split.
        + intros n Hn. destruct (existsb (Nat.eqb n) (order s)) eqn:Ex; [|reflexivity].
          apply existsb_exists in Ex as (y & Hy & Ey). apply Nat.eqb_eq in Ey. subst. tauto.
        + intros n Hn. replace (existsb (Nat.eqb n) (order s)) with true.
          2:{ symmetry. apply existsb_exists. exists n. split; [exact Hn|apply Nat.eqb_refl]. }
          exists [(n, pre net x)]. split; [reflexivity|]. split; [right; cbn; rewrite Nat.eqb_refl; reflexivity|].
          split; [intros p []|]. intros p _ _ Hpn. cbn. destruct (Nat.eqb_spec p n); [congruence|reflexivity].
      - rewrite E. reflexivity.
    Qed.
  End Py.
  Lemma dataset_trace (xs : list (list V)) x val t0 : (forall x', In x' (xs ++ [x]) -> exists v, evaluates net x' v) -> evaluates net x val ->
    compute_inference_debug z net name constant channels targets s (xs ++ [x]) t0 =
      Some (map (fun n => flat z channels n (val n)) (filter (recorded constant targets) (order s)), map (fun n => label (name n) n) (filter (recorded constant targets) (order s))).
  Proof.
    revert t0. induction xs as [|x' xs IH]; intros t0 EV HV.
    - cbn [Datatypes.app compute_inference_debug]. rewrite (one_trace x val HV). reflexivity.
    - cbn [Datatypes.app compute_inference_debug]. destruct (EV x' (or_introl eq_refl)) as (v & Hv). rewrite (one_trace x' v Hv). cbn [bind].
      apply IH; [|exact HV]. intros y Hy. apply EV. right. exact Hy.
  Qed.

  Hypothesis HK : layer_correct net s in_size.
  Context (x : list V) (val : nat -> list V).
  Hypothesis Hx : zlen x = in_size.
  Hypothesis Hval : evaluates net x val.
  Lemma copy_frame src dst n (m m' : mem V) : copy_c src dst n m = Some m' -> forall b, b <> dst -> m' b = m b.
  Proof.
    unfold copy_c. intros E. destruct (Z_le_gt_dec n 0) as [H|H]; [rewrite for_0 in E by lia; injection E as <-; reflexivity|].
    revert m' E. assert (HN : 0 <= n) by lia. clear H. revert n HN.
    apply (for_ind (fun n => forall m' : mem V, for_ n (fun k m0 => v <- rd m0 src k ;; wr m0 dst k v) m = Some m' -> forall b, b <> dst -> m' b = m b)).
    - intros m' E. rewrite for_0 in E by lia. injection E as <-. reflexivity.
    - intros n Hn IH m' E b Nb. rewrite for_succ in E by exact Hn. destruct (for_ n _ m) as [m1|] eqn:E1; [|discriminate]. cbn [bind] in E.
      destruct (rd m1 src n); [|discriminate]. cbn [bind] in E. unfold wr in E. destruct (wrl (m1 dst) n v); [|discriminate]. injection E as <-.
      rewrite upd_other by exact Nb. apply IH; [reflexivity|exact Nb].
  Qed.
  Lemma read_back (m : mem V) b l n : holds m b l -> zlen l = n -> all_some (tab n (rd m b)) = Some l.
  Proof.
    intros H E. subst n. rewrite (tab_ext (zlen l) (rd m b) (fun k => Some (nthZ z l k))).
    - rewrite (tab_nthZ z l) at 2. unfold tab. clear H. induction (seq 0 (Z.to_nat (zlen l))) as [|k ks IH]; [reflexivity|]. cbn [map all_some bind]. rewrite IH. reflexivity.
    - intros k Hk. apply holds_rd_nthZ; assumption.
  Qed.
  Lemma layer_trace m m' n k : run_layer net s m n = Some m' -> dget (paths s) n = Some k -> holds m' (Out k) (val n) -> zlen (val n) = size net n ->
    run_layer_debug net constant targets s m n = Some (m', if recorded constant targets n then [(n, val n)] else []).
  Proof.
    unfold run_layer, run_layer_debug. intros E EP HH SZ. destruct (sources net s n) as [srcs|]; [|discriminate]. cbn [bind] in *. rewrite EP in *. cbn [bind] in *.
    destruct (code net n srcs (Out k) m) as [m1|]; [|discriminate]. cbn [bind] in *.
    assert (H1 : holds m1 (Out k) (val n)).
    { destruct (dget (csts s) n) as [kc|]; [|injection E as <-; exact HH]. destruct HH as (r & HH). exists r. rewrite <- HH. symmetry. eapply copy_frame; [exact E|discriminate]. }
    destruct (recorded constant targets n).
    - rewrite (read_back m1 (Out k) (val n)) by assumption. cbn [bind]. rewrite E. reflexivity.
    - cbn [bind]. rewrite E. reflexivity.
  Qed.
  Lemma c_trace_from l2 : forall l1 m0 m, order s = l1 ++ l2 -> declared net s m0 -> holds m0 NnIn x -> inv net s val l1 l2 m0 m ->
    exists m', run_layers net s l2 m = Some m' /\ run_layers_debug net constant targets s l2 m = Some (m', map (fun n => (n, val n)) (filter (recorded constant targets) l2)).
  Proof.
    induction l2 as [|n l2 IH]; intros l1 m0 m E D Hin I; [exists m; split; reflexivity|].
    destruct (NetProofs.step net s HL G in_size HK x val Hx Hval l1 n l2 m0 m E D Hin I) as (m1 & k & E1 & I1 & Ek & Hk).
    assert (Hn : In n (order s)) by (rewrite E; apply in_or_app; right; left; reflexivity).
    pose proof (val_size' net s HL G in_size HK x val Hx Hval n Hn) as SZ.
    cbn [run_layers run_layers_debug]. rewrite E1, (layer_trace m m1 n k E1 Ek Hk SZ). cbn [bind fst snd].
    destruct (IH (l1 ++ [n]) m0 m1) as (m' & R1 & R2); auto; [rewrite E, <- app_assoc; reflexivity|].
    exists m'. split; [exact R1|]. rewrite R2. cbn [bind fst snd filter]. destruct (recorded constant targets n); reflexivity.
  Qed.
  Lemma c_trace m : declared net s m -> holds m NnIn x ->
    exists m', run_layers net s (order s) m = Some m' /\ run_layers_debug net constant targets s (order s) m = Some (m', map (fun n => (n, val n)) (filter (recorded constant targets) (order s))).
  Proof.
    intros D H. apply (c_trace_from (order s) [] m m); auto. split; [reflexivity|]. split; [reflexivity|]. intros p b c [].
  Qed.
End Run.
