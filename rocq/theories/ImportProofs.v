(** * Proofs about the importers (Import.v). *)
From Coq Require Import String Ascii.
From Coq Require Import List Arith Bool Lia.
Import ListNotations.
From Verif Require Import CMem Graph GraphSpec Import.

(** ** Links *)
Definition symmetric (l : links) : Prop :=
  forall p s, count_occ Nat.eq_dec (lnext l p) s = count_occ Nat.eq_dec (lprev l s) p.
Definition within (n : nat) (l : links) : Prop :=
  forall x i, In i (lprev l x) \/ In i (lnext l x) -> x < n /\ i < n.

Lemma no_links_symmetric : symmetric no_links.
Proof. intros p s. reflexivity. Qed.
Lemma no_links_within n : within n no_links.
Proof. intros x i [[]|[]]. Qed.
Lemma connect_symmetric p c l : symmetric l -> symmetric (connect p c l).
Proof.
  intros H a b. unfold connect; cbn [lprev lnext].
  destruct (Nat.eqb_spec a p) as [->|Ha], (Nat.eqb_spec b c) as [->|Hb];
    rewrite ?count_occ_app, ?H; cbn [count_occ].
  - destruct (Nat.eq_dec c c), (Nat.eq_dec p p); congruence || lia.
  - destruct (Nat.eq_dec c b); congruence || lia.
  - destruct (Nat.eq_dec p a); congruence || lia.
  - reflexivity.
Qed.
Lemma connect_within n p c l : p < n -> c < n -> within n l -> within n (connect p c l).
Proof.
  intros Hp Hc H x i. unfold connect; cbn [lprev lnext].
  destruct (Nat.eqb_spec x p) as [Ep|Ep], (Nat.eqb_spec x c) as [E|E];
    rewrite ?in_app_iff; cbn [In]; intros K;
    repeat match type of K with _ \/ _ => destruct K as [K|K] end; subst;
    try contradiction; try lia;
    match goal with
    | K : In _ (lprev l _) |- _ => exact (H _ _ (or_introl K))
    | K : In _ (lnext l _) |- _ => exact (H _ _ (or_intror K))
    end.
Qed.
Lemma within_mono n m l : n <= m -> within n l -> within m l.
Proof. intros Hn H x i K. specialize (H x i K). lia. Qed.
Lemma connect_prev_other p c l i : i <> c -> lprev (connect p c l) i = lprev l i.
Proof. intros H. cbn. destruct (Nat.eqb_spec i c); congruence. Qed.
Lemma connect_prev_same p c l : lprev (connect p c l) c = lprev l c ++ [p].
Proof. cbn. now rewrite Nat.eqb_refl. Qed.

Lemma linked_of_links n l cst :
  symmetric l -> within n l -> linked (mkGraph (seq 0 n) (lprev l) (lnext l) cst).
Proof.
  intros S W. constructor; cbn [dnn previous_layer next_layer].
  - apply seq_NoDup.
  - intros p s _ _. apply S.
  - intros x i _ H. apply in_seq. assert (In i (lprev l x) \/ In i (lnext l x)) as K by tauto.
    specialize (W x i K). lia.
Qed.
Lemma symmetric_acyclic n l cst rank :
  symmetric l -> within n l -> (forall s p, In p (lprev l s) -> rank p < rank s) ->
  acyclic (mkGraph (seq 0 n) (lprev l) (lnext l) cst).
Proof.
  intros S W H. exists rank. cbn [dnn next_layer]. intros p s _ Hs.
  apply H. apply (count_occ_In Nat.eq_dec). rewrite <- (S p s). now apply (count_occ_In Nat.eq_dec).
Qed.

(** ** Dictionaries *)
Lemma sget_sset_same d k v : sget (sset d k v) k = Some v.
Proof. cbn. now rewrite String.eqb_refl. Qed.
Lemma sget_sset_other d k k' v : k <> k' -> sget (sset d k v) k' = sget d k'.
Proof. intros H. cbn. destruct (String.eqb_spec k' k); congruence. Qed.
Lemma sget_sdel_same d k : sget (sdel d k) k = None.
Proof.
  induction d as [|[k' v] d IH]; [reflexivity|]. cbn.
  destruct (String.eqb_spec k k') as [->|H]; cbn; [exact IH|].
  destruct (String.eqb_spec k k'); [congruence|exact IH].
Qed.
Lemma sget_sdel_other d k k' : k <> k' -> sget (sdel d k) k' = sget d k'.
Proof.
  intros Hk. induction d as [|[k1 v] d IH]; [reflexivity|]. cbn.
  destruct (String.eqb_spec k k1) as [->|H]; cbn.
  - destruct (String.eqb_spec k' k1); [congruence|exact IH].
  - destruct (String.eqb_spec k' k1); [reflexivity|exact IH].
Qed.
Definition values_below (n : nat) (d : sdict) : Prop := forall k v, sget d k = Some v -> v < n.
Lemma values_below_set n m d k v : n <= m -> v < m -> values_below n d -> values_below m (sset d k v).
Proof.
  intros Hn Hv H k' v'. destruct (String.eqb_spec k k') as [<-|Hk].
  - rewrite sget_sset_same. intros [= <-]. exact Hv.
  - rewrite sget_sset_other by exact Hk. intros K. specialize (H _ _ K). lia.
Qed.
Lemma values_below_del n d k : values_below n d -> values_below n (sdel d k).
Proof.
  intros H k' v'. destruct (String.eqb_spec k k') as [<-|Hk].
  - rewrite sget_sdel_same. discriminate.
  - rewrite sget_sdel_other by exact Hk. apply H.
Qed.

(** ** ONNX: the links are symmetric *)
Definition ostate_ok (st : onnx_state) : Prop :=
  values_below (o_count st) (o_out st) /\ Forall (fun e => fst e < o_count st) (o_in st).
Lemma onnx_inputs_ok names st : ostate_ok st -> ostate_ok (onnx_inputs names st).
Proof.
  revert st; induction names as [|i r IH]; intros st [H1 H2]; [split; assumption|].
  cbn [onnx_inputs]. apply IH. split; cbn [o_count o_out o_in].
  - apply (values_below_set (o_count st)); [lia|lia|exact H1].
  - eapply Forall_impl; [|exact H2]. cbn. intros; lia.
Qed.
Lemma onnx_step_ok st nd st' : onnx_step st nd = Some st' -> ostate_ok st -> ostate_ok st'.
Proof.
  destruct nd as [ins out|s out|i out|out|]; cbn [onnx_step]; intros E [H1 H2].
  - injection E as <-. split; cbn [o_count o_out o_in].
    + apply (values_below_set (o_count st)); [lia|lia|exact H1].
    + apply Forall_app; split; [eapply Forall_impl; [|exact H2]; cbn; intros; lia|]. constructor; [cbn; lia|constructor].
  - injection E as <-. split; cbn [o_count o_out o_in].
    + apply (values_below_set (o_count st)); [lia|lia|exact H1].
    + apply Forall_app; split; [eapply Forall_impl; [|exact H2]; cbn; intros; lia|]. constructor; [cbn; lia|constructor].
  - destruct (sget (o_out st) i) as [k|] eqn:Ek; cbn [bind] in E; [|discriminate].
    injection E as <-. split; cbn [o_count o_out o_in]; [|exact H2].
    apply (values_below_set (o_count st)); [lia|exact (H1 _ _ Ek)|]. now apply values_below_del.
  - injection E as <-. now split.
  - discriminate.
Qed.
Lemma onnx_steps_ok nds : forall st st', onnx_steps st nds = Some st' -> ostate_ok st -> ostate_ok st'.
Proof.
  induction nds as [|nd r IH]; intros st st' E H; cbn [onnx_steps] in E.
  - injection E as <-. exact H.
  - destruct (onnx_step st nd) as [st1|] eqn:E1; cbn [bind] in E; [|discriminate].
    exact (IH _ _ E (onnx_step_ok _ _ _ E1 H)).
Qed.

(** [m]: the number of layers when linking starts *)
Record lstate_ok (m : nat) (st : link_state) : Prop := {
  ls_below : values_below (l_count st) (l_out st);
  ls_sym : symmetric (l_links st);
  ls_within : within (l_count st) (l_links st);
  ls_m : m <= l_count st;
  ls_consts : Forall (fun e => m <= fst e < l_count st) (l_consts st);
  ls_sources : forall c, m <= c -> lprev (l_links st) c = [] }.
Lemma onnx_link_one_ok inits m k st n st' :
  onnx_link_one inits k st n = Some st' -> k < m -> lstate_ok m st -> lstate_ok m st'.
Proof.
  intros E Hk [H1 H2 H3 H4 H5 H6]. unfold onnx_link_one in E.
  destruct (sget (l_out st) n) as [p|] eqn:Ep.
  - injection E as <-. constructor; cbn [l_count l_out l_links l_consts]; try assumption.
    + now apply connect_symmetric.
    + apply connect_within; [exact (H1 _ _ Ep)|lia|exact H3].
    + intros c Hc. rewrite connect_prev_other by lia. now apply H6.
  - destruct (existsb _ inits); [|discriminate]. injection E as <-.
    constructor; cbn [l_count l_out l_links l_consts].
    + apply (values_below_set (l_count st)); [lia|lia|exact H1].
    + now apply connect_symmetric.
    + apply connect_within; [lia|lia|]. apply (within_mono (l_count st)); [lia|exact H3].
    + lia.
    + apply Forall_app; split; [eapply Forall_impl; [|exact H5]; cbn; intros; lia|]. constructor; [cbn; lia|constructor].
    + intros c Hc. rewrite connect_prev_other by lia. now apply H6.
Qed.
Lemma onnx_link_inputs_ok inits m k names : forall st st',
  onnx_link_inputs inits k st names = Some st' -> k < m -> lstate_ok m st -> lstate_ok m st'.
Proof.
  induction names as [|n r IH]; intros st st' E Hk H; cbn [onnx_link_inputs] in E.
  - injection E as <-. exact H.
  - destruct (onnx_link_one inits k st n) as [st1|] eqn:E1; cbn [bind] in E; [|discriminate].
    exact (IH _ _ E Hk (onnx_link_one_ok _ _ _ _ _ _ E1 Hk H)).
Qed.
Lemma onnx_link_ok inits m din : forall st st',
  onnx_link inits st din = Some st' -> Forall (fun e => fst e < m) din -> lstate_ok m st -> lstate_ok m st'.
Proof.
  induction din as [|[k names] r IH]; intros st st' E Hd H; cbn [onnx_link] in E.
  - injection E as <-. exact H.
  - destruct (onnx_link_inputs inits k st names) as [st1|] eqn:E1; cbn [bind] in E; [|discriminate].
    inversion Hd; subst.
    exact (IH _ _ E H3 (onnx_link_inputs_ok _ _ _ _ _ _ E1 H2 H)).
Qed.

Lemma empty_ostate_ok : ostate_ok (mkOState 0 [] []).
Proof. split; [intros k v; discriminate|constructor]. Qed.
Lemma start_lstate_ok st : ostate_ok st -> lstate_ok (o_count st) (mkLState (o_count st) (o_out st) no_links []).
Proof.
  intros [H1 H2]. constructor; cbn [l_count l_out l_links l_consts]; auto using no_links_symmetric, no_links_within.
Qed.

Lemma load_onnx_linked M g cs : load_onnx M = Some (g, cs) ->
  linked g /\ constants_are_sources g /\ dnn g = seq 0 (length (dnn g)) /\
  (forall c, is_constant g c = true <-> exists name, In (c, name) cs).
Proof.
  unfold load_onnx. intros E.
  destruct (onnx_steps _ _) as [st|] eqn:E1; cbn [bind] in E; [|discriminate].
  destruct (onnx_link _ _ _) as [l|] eqn:E2; cbn [bind] in E; [|discriminate].
  injection E as <- <-.
  assert (ostate_ok st) as Hs.
  { eapply onnx_steps_ok; [exact E1|]. apply onnx_inputs_ok, empty_ostate_ok. }
  pose proof (onnx_link_ok _ _ _ _ _ E2 (proj2 Hs) (start_lstate_ok _ Hs)) as [H1 H2 H3 H4 H5 H6].
  assert (forall c, existsb (fun e : nat * string => c =? fst e) (l_consts l) = true <-> exists name, In (c, name) (l_consts l)) as HC.
  { intros c. rewrite existsb_exists. split.
    - intros [[c' n] [Hin He]]. apply Nat.eqb_eq in He. cbn in He. subst. now exists n.
    - intros [n Hin]. exists (c, n). split; [exact Hin|]. apply Nat.eqb_refl. }
  split; [|split; [|split]].
  - now apply linked_of_links.
  - intros c _ Hc. cbn [is_constant previous_layer] in *. apply HC in Hc. destruct Hc as [n Hn].
    rewrite Forall_forall in H5. specialize (H5 _ Hn). apply H6. cbn in H5. lia.
  - cbn [dnn]. now rewrite seq_length.
  - exact HC.
Qed.
