(** * A layer that is the only reader of its only input works in place. *)
From Coq Require Import List Arith Bool Lia.
Import ListNotations.
From Verif Require Import CMem Graph.

Lemma alloc_loop_app g l1 l2 st :
  alloc_loop g (l1 ++ l2) st = match alloc_loop g l1 st with Some st' => alloc_loop g l2 st' | None => None end.
Proof.
  revert st. induction l1 as [|x l1 IH]; intros st; [reflexivity|]. cbn [app alloc_loop].
  destruct (alloc_step g st x); [apply IH|reflexivity].
Qed.

Lemma alloc_step_keeps g st n st' k v : alloc_step g st n = Some st' ->
  dget (indexes st) k = Some v -> dget (indexes st') k = Some v.
Proof.
  unfold alloc_step. destruct (dmem (indexes st) n) eqn:D; [discriminate|].
  destruct (release _ _ _ _ _) as [[|i a]|]; [| |discriminate]; intros E H; inversion E; subst; cbn;
    (destruct (Nat.eqb_spec k n) as [->|]; [unfold dmem in D; rewrite H in D; discriminate|exact H]).
Qed.

Lemma alloc_loop_keeps g l : forall st st' k v, alloc_loop g l st = Some st' ->
  dget (indexes st) k = Some v -> dget (indexes st') k = Some v.
Proof.
  induction l as [|x l IH]; intros st st' k v E H; cbn in E.
  - inversion E; subst. exact H.
  - destruct (alloc_step g st x) as [st1|] eqn:E1; [|discriminate].
    apply (IH st1 st' k v E). exact (alloc_step_keeps g st x st1 k v E1 H).
Qed.

Lemma alloc_step_inplace g st n st' p : alloc_step g st n = Some st' ->
  previous_layer g n = [p] -> (forall s, In s (next_layer g p) -> s = n) ->
  exists i, dget (indexes st) p = Some i /\ dget (indexes st') n = Some i.
Proof.
  unfold alloc_step. intros E Hp Hn. destruct (dmem (indexes st) n); [discriminate|].
  rewrite Hp in E. cbn [release] in E. destruct (dget (indexes st) p) as [i|]; [|discriminate].
  replace (forallb (fun s => dmem (indexes st) s || (s =? n)) (next_layer g p)) with true in E.
  - inversion E; subst. exists i. split; [reflexivity|]. cbn. rewrite Nat.eqb_refl. reflexivity.
  - symmetry. apply forallb_forall. intros s Hs. rewrite (Hn s Hs), Nat.eqb_refl. apply orb_true_r.
Qed.

Lemma inplace_path g s n p : tri_topo g = Some s -> In n (order s) ->
  previous_layer g n = [p] -> (forall q, In q (next_layer g p) -> q = n) ->
  exists i, dget (paths s) p = Some i /\ dget (paths s) n = Some i.
Proof.
  unfold tri_topo. intros E Hin Hp Hn. destruct (depth_first_sort g) as [srt|]; [|discriminate].
  destruct (hoist_constants g srt) as [ord|]; [|discriminate].
  destruct (assign_liveliness_index g ord) as [ps|] eqn:EA; [|discriminate].
  inversion E; subst s; cbn in *. clear E. unfold assign_liveliness_index in EA.
  destruct (alloc_loop g ord _) as [st|] eqn:EL; [|discriminate]. inversion EA; subst ps. clear EA.
  apply in_split in Hin as (l1 & l2 & ->). rewrite alloc_loop_app in EL.
  destruct (alloc_loop g l1 _) as [st1|]; [|discriminate]. cbn [alloc_loop] in EL.
  destruct (alloc_step g st1 n) as [st2|] eqn:E2; [|discriminate].
  destruct (alloc_step_inplace g st1 n st2 p E2 Hp Hn) as (i & H1 & H2).
  exists i. split.
  - apply (alloc_loop_keeps g l2 st2 st p i EL). exact (alloc_step_keeps g st1 n st2 p i E2 H1).
  - exact (alloc_loop_keeps g l2 st2 st n i EL H2).
Qed.
