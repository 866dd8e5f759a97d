(** * The constant layers made by the ONNX importer (used by C72). *)
From Coq Require Import String.
From Coq Require Import List Arith Bool Lia.
Import ListNotations.
From Verif Require Import CMem Graph GraphSpec Import ImportSpec ImportProofs ImportOnnxProofs.
Open Scope list_scope.

Section Constants.
  Variable inits : list string.
  Variable n0 : nat.
  Record numbered (st : link_state) : Prop := {
    nb_keys : map fst (l_consts st) = seq n0 (length (l_consts st));
    nb_count : l_count st = n0 + length (l_consts st);
    nb_names : forall c nm, In (c, nm) (l_consts st) -> In nm inits;
    nb_read : forall c nm, In (c, nm) (l_consts st) -> lnext (l_links st) c <> [] }.
  Lemma next_grows p c l i : lnext l i <> [] -> lnext (connect p c l) i <> [].
  Proof. cbn. destruct (Nat.eqb i p); [|auto]. intros _ H. apply app_eq_nil in H. destruct H as (_ & H). discriminate. Qed.
  Lemma numbered_one k st nm st' : onnx_link_one inits k st nm = Some st' -> numbered st -> numbered st'.
  Proof.
    unfold onnx_link_one. intros E [H1 H2 H3 H4]. destruct (sget (l_out st) nm) as [p|].
    - injection E as <-. constructor; cbn [l_consts l_count l_links]; auto. intros c n Hc. apply next_grows. eapply H4. exact Hc.
    - destruct (existsb (String.eqb nm) inits) eqn:EX; [|discriminate]. injection E as <-. constructor; cbn [l_consts l_count l_links].
      + rewrite map_app, app_length, H1. cbn [map length fst]. rewrite H2, Nat.add_1_r, seq_S. reflexivity.
      + rewrite app_length. cbn [length]. lia.
      + intros c n Hc. apply in_app_iff in Hc. destruct Hc as [Hc|[Hc|[]]]; [eapply H3; exact Hc|]. injection Hc as <- <-. apply existsb_exists in EX. destruct EX as (x & Hx & EQ). apply String.eqb_eq in EQ. subst x. exact Hx.
      + intros c n Hc. apply in_app_iff in Hc. destruct Hc as [Hc|[Hc|[]]]; [apply next_grows; eapply H4; exact Hc|]. injection Hc as <- <-. cbn. rewrite Nat.eqb_refl. intros H. apply app_eq_nil in H. destruct H as (_ & H). discriminate.
  Qed.
  Lemma numbered_inputs k names : forall st st', onnx_link_inputs inits k st names = Some st' -> numbered st -> numbered st'.
  Proof.
    induction names as [|n r IH]; intros st st' E H; cbn [onnx_link_inputs] in E; [injection E as <-; exact H|]. destruct (onnx_link_one inits k st n) as [st1|] eqn:E1; [|discriminate]. cbn [bind] in E.
    eapply IH; [exact E|]. eapply numbered_one; eassumption.
  Qed.
  Lemma numbered_all din : forall st st', onnx_link inits st din = Some st' -> numbered st -> numbered st'.
  Proof.
    induction din as [|(k, names) r IH]; intros st st' E H; cbn [onnx_link] in E; [injection E as <-; exact H|]. destruct (onnx_link_inputs inits k st names) as [st1|] eqn:E1; [|discriminate]. cbn [bind] in E.
    eapply IH; [exact E|]. eapply numbered_inputs; eassumption.
  Qed.
End Constants.
Lemma steps_count nds : forall st st', onnx_steps st nds = Some st' -> o_count st' = o_count st + layers_in nds.
Proof.
  induction nds as [|nd r IH]; intros st st' E; cbn [onnx_steps] in E; [injection E as <-; cbn; lia|]. destruct (onnx_step st nd) as [st1|] eqn:E1; [|discriminate]. cbn [bind] in E. rewrite (IH _ _ E). change (nd :: r) with ([nd] ++ r). rewrite layers_in_app.
  destruct nd; cbn [onnx_step] in E1; try discriminate; try (injection E1 as <-; cbn; lia). destruct (sget (o_out st) input); [|discriminate]. injection E1 as <-. cbn. lia.
Qed.
Lemma inputs_count names : forall st, o_count (onnx_inputs names st) = o_count st + length names.
Proof. induction names as [|n r IH]; intros st; cbn [onnx_inputs length]; [lia|]. rewrite IH. cbn [o_count]. lia. Qed.
Lemma load_constants M g cs : load_onnx M = Some (g, cs) -> let n0 := length (o_inputs M) + layers_in (o_nodes M) in
  dnn g = seq 0 (n0 + length cs) /\ map fst cs = seq n0 (length cs) /\ (forall c nm, In (c, nm) cs -> In nm (o_initializers M)) /\
  (forall c nm, In (c, nm) cs -> next_layer g c <> []).
Proof.
  intros E n0; subst n0. unfold load_onnx in E. destruct (onnx_steps _ _) as [st|] eqn:E1; [|discriminate]. cbn [bind] in E. destruct (onnx_link _ _ _) as [l|] eqn:E2; [|discriminate]. cbn [bind] in E. injection E as <- <-.
  pose proof (steps_count _ _ _ E1) as C. rewrite inputs_count in C. cbn [o_count] in C. rewrite Nat.add_0_l in C.
  destruct (numbered_all (o_initializers M) (o_count st) _ _ _ E2) as [H1 H2 H3 H4].
  { constructor; cbn [l_consts l_count l_links]; [reflexivity|cbn; lia|intros c n []|intros c n []]. }
  cbn [dnn next_layer]. rewrite <- C. split; [rewrite H2; reflexivity|]. split; [exact H1|]. split; assumption.
Qed.
