(** * The matcher terminates on every list of layers. *)
From Coq Require Import ZArith List Lia Bool Arith.
Import ListNotations.
From Verif Require Import CMem Num Graph LayerKinds Pattern.
Open Scope nat_scope.

Lemma list_pop_length i l : forall l', list_pop i l = Some l' -> S (length l') = length l.
Proof.
  revert i. induction l as [|x l IH]; intros [|i] l'; cbn; try discriminate.
  - intros [= <-]. reflexivity.
  - destruct (list_pop i l) as [r|] eqn:E; cbn; [|discriminate]. intros [= <-]. cbn. rewrite (IH i r E). reflexivity.
Qed.
Lemma list_remove_length x l : forall l', list_remove x l = Some l' -> S (length l') = length l.
Proof.
  induction l as [|y l IH]; intros l'; cbn; [discriminate|]. destruct (Nat.eqb x y); [intros [= <-]; reflexivity|].
  destruct (list_remove x l) as [r|] eqn:E; cbn; [|discriminate]. intros [= <-]. cbn. rewrite (IH r eq_refl). reflexivity.
Qed.
Lemma list_index_lt x l : forall j, list_index x l = Some j -> j < length l.
Proof.
  induction l as [|y l IH]; intros j; cbn; [discriminate|]. destruct (Nat.eqb x y); [intros [= <-]; lia|].
  destruct (list_index x l) as [r|] eqn:E; cbn; [|discriminate]. intros [= <-]. specialize (IH r eq_refl). lia.
Qed.

Section Term.
  Context (N : num).
  Notation pnet := (pnet N).
  Implicit Types st : pnet.

  Lemma fold_layers (f : pnet -> nat -> pnet) l : (forall st o, pn_layers N (f st o) = pn_layers N st) ->
    forall st, pn_layers N (fold_left f l st) = pn_layers N st.
  Proof. intros H. induction l as [|o l IH]; intros st; cbn; [reflexivity|]. rewrite IH. apply H. Qed.
  Lemma update_indices_layers i k st st' : update_indices N i k st = Some st' -> pn_layers N st' = pn_layers N st.
  Proof.
    unfold update_indices. destruct (nth_error (pn_layers N st) i); [|discriminate]. cbn [bind]. destruct (Nat.ltb i k); [discriminate|].
    intros [= <-]. apply fold_layers. intros s o. destruct (Nat.ltb _ _); [|reflexivity]. destruct (dget _ _); reflexivity.
  Qed.
  Lemma update_next_layers_layers r p st : pn_layers N (update_next_layers N r p st) = pn_layers N st.
  Proof.
    unfold update_next_layers. apply fold_layers. intros s o. cbn. destruct (memb _ _); reflexivity.
  Qed.
  Lemma update_dict_cst_layers r p st : pn_layers N (update_dict_cst N r p st) = pn_layers N st.
  Proof. unfold update_dict_cst. destruct (dget _ _); reflexivity. Qed.

  Definition shrinks st st' (j : nat) : Prop := S (length (pn_layers N st')) = length (pn_layers N st) /\ j < length (pn_layers N st').

  Ltac step H := match type of H with bind ?o _ = Some _ => let E := fresh "E" in destruct o eqn:E; [cbn [bind] in H|discriminate H] end.
  Lemma fuse_activation_shrinks st i st' j : fuse_activation N st i = Some (st', j) -> shrinks st st' j.
  Proof.
    unfold fuse_activation. intros H. repeat step H. injection H as <- <-. apply update_indices_layers in E3. cbn in E3.
    rewrite update_next_layers_layers in E2. cbn in E2. rewrite update_dict_cst_layers in E2. cbn in E2.
    split; [rewrite E3; apply (list_pop_length _ _ _ E2)|]. apply (list_index_lt _ _ _ E4).
  Qed.
  Lemma fuse_conv_bn_shrinks st i st' j : fuse_conv_bn N st i = Some (st', j) -> shrinks st st' j.
  Proof.
    unfold fuse_conv_bn. intros H. step H. step H. destruct (kind_of N st n0); try discriminate H. destruct (kind_of N st n); try discriminate H.
    repeat step H. injection H as <- <-. apply update_indices_layers in E3. cbn in E3.
    rewrite update_dict_cst_layers, update_next_layers_layers in E2. cbn in E2.
    split; [rewrite E3; apply (list_pop_length _ _ _ E2)|]. apply (list_index_lt _ _ _ E4).
  Qed.
  Lemma sigmoid_mul_shrinks st i st' j : sigmoid_mul N st i = Some (st', j) -> shrinks st st' j.
  Proof.
    unfold sigmoid_mul. intros H. repeat step H. injection H as <- <-.
    apply update_indices_layers in E5. cbn [set_layers pn_layers] in E5.
    rewrite update_dict_cst_layers, update_next_layers_layers in E4. cbn in E4.
    split; [rewrite E5; apply (list_remove_length _ _ _ E4)|]. apply (list_index_lt _ _ _ E6).
  Qed.

  Lemma try_shrinks ps n : (forall p, In p ps -> forall st i st' j, apply_pattern N p st i = Some (st', j) -> shrinks st st' j) ->
    forall st i st' j, try_patterns N ps n st i = Some (st', j) ->
    (st' = st /\ j = i) \/ (length (pn_layers N st') < length (pn_layers N st) /\ j < length (pn_layers N st')).
  Proof.
    induction ps as [|p ps IH]; intros HP st i st' j; cbn [try_patterns].
    - intros [= <- <-]. left. auto.
    - assert (HP' : forall p0, In p0 ps -> forall st i st' j, apply_pattern N p0 st i = Some (st', j) -> shrinks st st' j) by (intros; eapply HP; [right|]; eauto).
      destruct (is_pattern N p st n); [|apply IH; exact HP'].
      destruct (apply_pattern N p st i) as [[st1 j1]|] eqn:E; cbn [bind fst snd]; [|discriminate].
      intros H. pose proof (HP p (or_introl eq_refl) _ _ _ _ E) as [S1 S2].
      destruct (IH HP' _ _ _ _ H) as [[-> ->]|[S3 S4]]; right; lia.
  Qed.
  Lemma registered_shrink n st i st' j : try_patterns N (registered N) n st i = Some (st', j) ->
    (st' = st /\ j = i) \/ (length (pn_layers N st') < length (pn_layers N st) /\ j < length (pn_layers N st')).
  Proof.
    apply try_shrinks. intros p [<-|[<-|[<-|[<-|[]]]]]; cbn [apply_pattern].
    - exact fuse_activation_shrinks.
    - exact fuse_conv_bn_shrinks.
    - discriminate.
    - exact sigmoid_mul_shrinks.
  Qed.

  Lemma match_loop_ends fuel : forall st i,
    length (pn_layers N st) * S (length (pn_layers N st)) + (length (pn_layers N st) - i) <= fuel ->
    match_loop N fuel st i <> OutOfFuel N.
  Proof.
    induction fuel as [|fuel IH]; intros st i HF; cbn [match_loop]; destruct (nth_error (pn_layers N st) i) as [n|] eqn:E; try discriminate.
    - assert (i < length (pn_layers N st)) by (apply nth_error_Some; congruence). lia.
    - assert (Hi : i < length (pn_layers N st)) by (apply nth_error_Some; congruence).
      destruct (try_patterns N (registered N) n st i) as [[st' i']|] eqn:ET; [|discriminate].
      apply IH. destruct (registered_shrink _ _ _ _ _ ET) as [[-> ->]|[S1 S2]]; [lia|].
      assert (length (pn_layers N st') * S (length (pn_layers N st')) + length (pn_layers N st') <= fuel); [|lia].
      remember (length (pn_layers N st)) as a. remember (length (pn_layers N st')) as b. nia.
  Qed.
  Lemma optimise_ends st : optimise N st <> OutOfFuel N.
  Proof. apply match_loop_ends. lia. Qed.
End Term.
