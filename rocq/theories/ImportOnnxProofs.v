(** * The ONNX importer connects every layer to the layers holding its inputs. *)
From Coq Require Import String Ascii.
From Coq Require Import List Arith Bool Lia.
Import ListNotations.
From Verif Require Import CMem Graph GraphSpec Import ImportSpec ImportProofs.

Lemma layers_in_app a b : layers_in (a ++ b) = layers_in a + layers_in b.
Proof. unfold layers_in. now rewrite filter_app, app_length. Qed.

(** ** Uniqueness of producers *)
Lemma split_unique {A} (outs : A -> list string) : forall l1 x r1 l2 y r2 n,
  l1 ++ x :: r1 = l2 ++ y :: r2 -> NoDup (flat_map outs (l1 ++ x :: r1)) ->
  In n (outs x) -> In n (outs y) -> l1 = l2 /\ x = y.
Proof.
  induction l1 as [|a l1 IH]; intros x r1 l2 y r2 n E D Hx Hy; destruct l2 as [|b l2]; cbn in E.
  - injection E as <- _. now split.
  - injection E as <- ->. exfalso. cbn in D. revert D Hx. generalize (outs x) as o. intros o D Hx.
    assert (In n (flat_map outs (l2 ++ y :: r2))) as K.
    { apply in_flat_map. exists y. split; [apply in_elt|exact Hy]. }
    revert D Hx K. generalize (flat_map outs (l2 ++ y :: r2)). intros f. induction o as [|z o IHo]; [intros _ []|].
    cbn. intros D [->|Hx] K.
    + inversion D; subst. apply H1. apply in_or_app. now right.
    + inversion D; subst. now apply IHo.
  - injection E as -> <-. exfalso. cbn in D. revert D Hy. generalize (outs y) as o. intros o D Hx0.
    assert (In n (flat_map outs (l1 ++ x :: r1))) as K.
    { apply in_flat_map. exists x. split; [apply in_elt|exact Hx]. }
    revert D Hx0 K. generalize (flat_map outs (l1 ++ x :: r1)). intros f. induction o as [|z o IHo]; [intros _ []|].
    cbn. intros D [->|Hx0] K.
    + inversion D; subst. apply H1. apply in_or_app. now right.
    + inversion D; subst. now apply IHo.
  - injection E as -> E. destruct (IH x r1 l2 y r2 n E) as [-> ->]; try assumption.
    + cbn in D. revert D. generalize (outs b). intros o. induction o as [|z o IHo]; [easy|]. cbn. intros D. inversion D; subst. now apply IHo.
    + now split.
Qed.
Lemma NoDup_app_l {A} (a b : list A) : NoDup (a ++ b) -> NoDup a.
Proof. induction a as [|x a IH]; intros H; [constructor|]. cbn in H. inversion H; subst. constructor; [|now apply IH]. intros K. apply H2, in_or_app. now left. Qed.
Lemma NoDup_app_r {A} (a b : list A) : NoDup (a ++ b) -> NoDup b.
Proof. induction a as [|x a IH]; intros H; [exact H|]. cbn in H. inversion H; subst. now apply IH. Qed.
Lemma NoDup_app_disj {A} (a b : list A) x : NoDup (a ++ b) -> In x a -> In x b -> False.
Proof.
  induction a as [|y a IH]; intros H Ha Hb; [destruct Ha|]. cbn in H. inversion H; subst.
  destruct Ha as [->|Ha]; [apply H2, in_or_app; now right|now apply IH].
Qed.
Lemma NoDup_split_unique {A} : forall (l1 : list A) x r1 l2 r2,
  l1 ++ x :: r1 = l2 ++ x :: r2 -> NoDup (l1 ++ x :: r1) -> l1 = l2.
Proof.
  induction l1 as [|a l1 IH]; intros x r1 l2 r2 E D; destruct l2 as [|b l2]; cbn in E; [reflexivity| | |].
  - injection E as -> E. exfalso. cbn in D. inversion D; subst. apply H1. rewrite ?E. apply in_elt.
  - injection E as -> E. exfalso. cbn in D. inversion D; subst. apply H1. apply in_elt.
  - injection E as -> E. f_equal. apply (IH x r1 l2 r2 E). cbn in D. now inversion D.
Qed.

Lemma Forall2_impl {A B} (R S : A -> B -> Prop) l l' :
  (forall a b, R a b -> S a b) -> Forall2 R l l' -> Forall2 S l l'.
Proof. induction 2; constructor; auto. Qed.

Section Importable.
Variable M : onnx_model.
Hypothesis IM : importable M.
Let D := im_unique M IM.

Lemma D_nodes : NoDup (flat_map node_outputs (o_nodes M)).
Proof. exact (NoDup_app_r _ _ D). Qed.
Lemma D_inputs : NoDup (o_inputs M).
Proof. exact (NoDup_app_l _ _ D). Qed.
Lemma input_not_output name before nd after :
  In name (o_inputs M) -> o_nodes M = before ++ nd :: after -> In name (node_outputs nd) -> False.
Proof.
  intros H1 H2 H3. apply (NoDup_app_disj _ _ name D H1). rewrite H2. apply in_flat_map. exists nd. split; [apply in_elt|exact H3].
Qed.
Lemma output_split_unique l1 x r1 l2 y r2 n :
  o_nodes M = l1 ++ x :: r1 -> o_nodes M = l2 ++ y :: r2 -> In n (node_outputs x) -> In n (node_outputs y) -> l1 = l2 /\ x = y.
Proof.
  intros E1 E2 Hx Hy. apply (split_unique node_outputs l1 x r1 l2 y r2 n); [congruence| |exact Hx|exact Hy].
  rewrite <- E1. exact D_nodes.
Qed.
Lemma output_of_layer_unique name k1 : output_of_layer M name k1 -> forall k2, output_of_layer M name k2 -> k1 = k2.
Proof.
  induction 1 as [before name after E|before ins name after E|before i name after k E H IH]; intros k2 H2.
  - assert (In name (o_inputs M)) as Hin by (rewrite E; apply in_elt).
    inversion H2 as [b' ? a' E'|b' ins' ? a' E'|b' i' ? a' k' E' H']; subst.
    + rewrite (NoDup_split_unique before name after b' a'); [reflexivity|congruence|]. rewrite <- E. exact D_inputs.
    + exfalso. apply (input_not_output name b' _ a' Hin E'). now left.
    + exfalso. apply (input_not_output name b' _ a' Hin E'). now left.
  - inversion H2 as [b' ? a' E'|b' ins' ? a' E'|b' i' ? a' k' E' H']; subst.
    + exfalso. apply (input_not_output name before _ after) with (2 := E); [rewrite E'; apply in_elt|now left].
    + destruct (output_split_unique _ _ _ _ _ _ name E E') as [-> _]; [now left|now left|reflexivity].
    + destruct (output_split_unique _ _ _ _ _ _ name E E') as [_ K]; [now left|now left|discriminate].
  - inversion H2 as [b' ? a' E'|b' ins' ? a' E'|b' i' ? a' k' E' H']; subst.
    + exfalso. apply (input_not_output name before _ after) with (2 := E); [rewrite E'; apply in_elt|now left].
    + destruct (output_split_unique _ _ _ _ _ _ name E E') as [_ K]; [now left|now left|discriminate].
    + destruct (output_split_unique _ _ _ _ _ _ name E E') as [_ K]; [now left|now left|]. injection K as ->. now apply IH.
Qed.

(** ** The first pass *)
(** names whose entry is in dict_output after the nodes [done] *)
Definition defined_by (done : list onnx_node) (name : string) : Prop :=
  In name (o_inputs M) \/
  exists p, In p done /\ In name (node_outputs p) /\ match p with OConstant _ => False | _ => True end.
Definition renamed (done : list onnx_node) (name : string) : Prop := exists o, In (OBypass name o) done.
Record first_pass (done : list onnx_node) (st : onnx_state) : Prop := {
  fp_count : o_count st = length (o_inputs M) + layers_in done;
  fp_sound : forall name k, sget (o_out st) name = Some k -> output_of_layer M name k;
  fp_dom : forall name k, sget (o_out st) name = Some k -> defined_by done name;
  fp_below : values_below (o_count st) (o_out st);
  fp_complete : forall name, defined_by done name -> ~ renamed done name -> exists k, sget (o_out st) name = Some k;
  fp_in : forall k ins, In (k, ins) (o_in st) <->
    exists before o after, done = before ++ OLayer ins o :: after /\ k = length (o_inputs M) + layers_in before;
  fp_in_ordered : forall k ins, In (k, ins) (o_in st) -> forall name, In name ins ->
    (exists k', k' < k /\ output_of_layer M name k') \/ (In name (o_initializers M) /\ ~ defined_by (o_nodes M) name)
}.

Lemma onnx_inputs_spec names : forall st prefix,
  o_inputs M = prefix ++ names -> o_count st = length prefix -> o_in st = [] ->
  (forall name k, sget (o_out st) name = Some k -> exists b a, prefix = b ++ name :: a /\ k = length b) ->
  (forall name, In name prefix -> exists k, sget (o_out st) name = Some k) ->
  let st' := onnx_inputs names st in
  o_count st' = length (o_inputs M) /\ o_in st' = [] /\
  (forall name k, sget (o_out st') name = Some k -> exists b a, o_inputs M = b ++ name :: a /\ k = length b) /\
  (forall name, In name (o_inputs M) -> exists k, sget (o_out st') name = Some k).
Proof.
  induction names as [|n r IH]; intros st prefix E Hc Hi H1 H2; cbn [onnx_inputs].
  - cbn. rewrite app_nil_r in E. rewrite E. auto.
  - apply (IH _ (prefix ++ [n])).
    + rewrite <- app_assoc. exact E.
    + cbn [o_count]. rewrite app_length. cbn. lia.
    + exact Hi.
    + cbn [o_out]. intros name k. destruct (String.eqb_spec n name) as [<-|Hn].
      * rewrite sget_sset_same. intros [= <-]. exists prefix, []. now split.
      * rewrite sget_sset_other by exact Hn. intros K. destruct (H1 _ _ K) as [b [a [-> ->]]].
        exists b, (a ++ [n]). split; [now rewrite <- app_assoc|reflexivity].
    + cbn [o_out]. intros name K. destruct (String.eqb_spec n name) as [<-|Hn].
      * exists (o_count st). now rewrite sget_sset_same.
      * rewrite sget_sset_other by exact Hn. apply H2. apply in_app_iff in K. destruct K as [K|[K|[]]]; [exact K|congruence].
Qed.

Lemma first_pass_start : first_pass [] (onnx_inputs (o_inputs M) (mkOState 0 [] [])).
Proof.
  destruct (onnx_inputs_spec (o_inputs M) (mkOState 0 [] []) []) as [H1 [H2 [H3 H4]]]; try reflexivity; try (cbn; intros; discriminate || contradiction).
  constructor.
  - rewrite H1. cbn. lia.
  - intros name k K. destruct (H3 _ _ K) as [b [a [E ->]]]. now apply from_input with a.
  - intros name k K. destruct (H3 _ _ K) as [b [a [E ->]]]. left. rewrite E. apply in_elt.
  - intros name k K. destruct (H3 _ _ K) as [b [a [E ->]]]. rewrite H1, E, app_length. cbn. lia.
  - intros name [H|[p [[] _]]] _. now apply H4.
  - rewrite H2. intros k ins. split; [intros []|]. intros [b [o [a [E _]]]]. destruct b; discriminate.
  - rewrite H2. intros k ins [].
Qed.

Lemma defined_mono done nd name : defined_by done name -> defined_by (done ++ [nd]) name.
Proof. intros [H|[p [H K]]]; [now left|right]. exists p. split; [apply in_or_app; now left|exact K]. Qed.
Lemma defined_snoc done nd name : defined_by (done ++ [nd]) name ->
  defined_by done name \/ (In name (node_outputs nd) /\ match nd with OConstant _ => False | _ => True end).
Proof.
  intros [H|[p [H K]]]; [left; now left|]. apply in_app_iff in H. destruct H as [H|[<-|[]]]; [left; right; now exists p|now right].
Qed.
Lemma defined_all done rest name : o_nodes M = done ++ rest -> defined_by done name -> defined_by (o_nodes M) name.
Proof. intros E [H|[p [H K]]]; [now left|right]. exists p. split; [rewrite E; apply in_or_app; now left|exact K]. Qed.
(** an input of the next node is in the dictionary unless it is an initialiser *)
Lemma input_available done nd rest st name :
  o_nodes M = done ++ nd :: rest -> first_pass done st -> In name (node_inputs nd) ->
  (exists k, sget (o_out st) name = Some k) \/
  (In name (o_initializers M) /\ ~ In name (flat_map node_outputs (o_nodes M)) /\ ~ In name (o_inputs M) /\ match nd with OBypass _ _ => False | _ => True end).
Proof.
  intros E F Hin. destruct (in_dec string_dec name (o_inputs M)) as [Hi|Hi].
  - left. apply (fp_complete _ _ F); [now left|]. intros [o Ho].
    destruct (in_split _ _ Ho) as [b [a Eb]].
    refine (im_identity M IM b name o (a ++ nd :: rest) nd _ _ Hin).
    + rewrite E, Eb, <- app_assoc. reflexivity.
    + apply in_or_app. right. apply in_elt.
  - destruct (im_ordered M IM done nd rest name E Hin) as [H|[[p [Hp [Ho Hc]]]|[H1 [H2 H3]]]].
    + contradiction.
    + left. apply (fp_complete _ _ F); [right; now exists p|]. intros [o Hr].
      destruct (in_split _ _ Hr) as [b [a Eb]].
      refine (im_identity M IM b name o (a ++ nd :: rest) nd _ _ Hin).
      * rewrite E, Eb, <- app_assoc. reflexivity.
      * apply in_or_app. right. apply in_elt.
    + right. auto.
Qed.
Lemma fresh_output done nd rest name :
  o_nodes M = done ++ nd :: rest -> In name (node_outputs nd) -> ~ defined_by done name.
Proof.
  intros E Hn [H|[p [H [K _]]]].
  - now apply (input_not_output name done nd rest).
  - destruct (in_split _ _ H) as [b [a Eb]].
    destruct (output_split_unique b p (a ++ nd :: rest) done nd rest name) as [E1 _]; auto.
    { rewrite E, Eb, <- app_assoc. reflexivity. }
    rewrite E1 in Eb. apply (f_equal (@length _)) in Eb. rewrite app_length in Eb. cbn in Eb. lia.
Qed.

Lemma first_pass_step done nd rest st :
  o_nodes M = done ++ nd :: rest -> first_pass done st ->
  exists st', onnx_step st nd = Some st' /\ first_pass (done ++ [nd]) st'.
Proof.
  intros E F. pose proof (im_supported M IM nd ltac:(rewrite E; apply in_elt)) as HS.
  assert (forall name, In name (node_outputs nd) -> sget (o_out st) name = None) as Hfresh.
  { intros name Hn. destruct (sget (o_out st) name) eqn:K; [|reflexivity]. exfalso.
    apply (fresh_output done nd rest name E Hn). exact (fp_dom _ _ F _ _ K). }
  destruct nd as [ins out|s out|i out|out|]; try contradiction.
  - (* a layer *)
    eexists. split; [reflexivity|].
    assert (output_of_layer M out (o_count st)) as Hout.
    { rewrite (fp_count _ _ F). now apply from_node with ins rest. }
    constructor; cbn [o_count o_out o_in].
    + rewrite (fp_count _ _ F), layers_in_app. cbn. lia.
    + intros name k. destruct (String.eqb_spec out name) as [<-|Hn].
      * rewrite sget_sset_same. intros [= <-]. exact Hout.
      * rewrite sget_sset_other by exact Hn. apply (fp_sound _ _ F).
    + intros name k. destruct (String.eqb_spec out name) as [<-|Hn].
      * intros _. right. exists (OLayer ins out). split; [apply in_or_app; right; now left|]. split; [now left|exact I].
      * rewrite sget_sset_other by exact Hn. intros K. apply defined_mono. exact (fp_dom _ _ F _ _ K).
    + apply (values_below_set (o_count st)); [lia|lia|apply (fp_below _ _ F)].
    + intros name Hd Hr. destruct (String.eqb_spec out name) as [<-|Hn].
      * exists (o_count st). apply sget_sset_same.
      * rewrite sget_sset_other by exact Hn. apply (fp_complete _ _ F).
        -- destruct (defined_snoc _ _ _ Hd) as [H|[[H|[]] _]]; [exact H|congruence].
        -- intros [o Ho]. apply Hr. exists o. apply in_or_app. now left.
    + intros k ins'. rewrite in_app_iff, (fp_in _ _ F). split.
      * intros [[b [o [a [-> ->]]]]|[[= <- <-]|[]]].
        -- exists b, o, (a ++ [OLayer ins out]). split; [now rewrite <- app_assoc|reflexivity].
        -- exists done, out, []. split; [reflexivity|apply (fp_count _ _ F)].
      * intros [b [o [a [Eb ->]]]]. destruct (exists_last (l := OLayer ins' o :: a) ltac:(discriminate)) as [a' [z Ez]].
        rewrite Ez, app_assoc in Eb. apply app_inj_tail in Eb. destruct Eb as [Eb <-].
        destruct a' as [|y a'].
        -- cbn in Ez. injection Ez as -> -> _. right. left. rewrite app_nil_r in Eb. subst b. now rewrite (fp_count _ _ F).
        -- cbn in Ez. injection Ez as <- _. left. exists b, o, a'. now split.
    + intros k ins'. rewrite in_app_iff. intros [K|[[= <- <-]|[]]] name Hn; [exact (fp_in_ordered _ _ F _ _ K _ Hn)|].
      destruct (input_available done _ rest st name E F Hn) as [[k K]|[H1 [H2 [H3 _]]]].
      * left. exists k. split; [exact (fp_below _ _ F _ _ K)|exact (fp_sound _ _ F _ _ K)].
      * right. split; [exact H1|]. intros [H|[p [Hp [Ho _]]]]; [contradiction|]. apply H2, in_flat_map. now exists p.
  - (* an identity-like node *)
    destruct (input_available done _ rest st i E F (or_introl eq_refl)) as [[k K]|[_ [_ [_ []]]]].
    cbn [onnx_step]. rewrite K. cbn [bind]. eexists. split; [reflexivity|].
    assert (output_of_layer M out k) as Hout.
    { apply (from_identity M done i out rest k E). exact (fp_sound _ _ F _ _ K). }
    constructor; cbn [o_count o_out o_in].
    + rewrite (fp_count _ _ F), layers_in_app. cbn. lia.
    + intros name k'. destruct (String.eqb_spec out name) as [<-|Hn].
      * rewrite sget_sset_same. intros [= <-]. exact Hout.
      * rewrite sget_sset_other by exact Hn. destruct (String.eqb_spec i name) as [<-|Hi]; [rewrite sget_sdel_same; discriminate|].
        rewrite sget_sdel_other by exact Hi. apply (fp_sound _ _ F).
    + intros name k'. destruct (String.eqb_spec out name) as [<-|Hn].
      * intros _. right. exists (OBypass i out). split; [apply in_or_app; right; now left|]. split; [now left|exact I].
      * rewrite sget_sset_other by exact Hn. destruct (String.eqb_spec i name) as [<-|Hi]; [rewrite sget_sdel_same; discriminate|].
        rewrite sget_sdel_other by exact Hi. intros K'. apply defined_mono. exact (fp_dom _ _ F _ _ K').
    + apply (values_below_set (o_count st)); [lia|exact (fp_below _ _ F _ _ K)|]. apply values_below_del, (fp_below _ _ F).
    + intros name Hd Hr. destruct (String.eqb_spec out name) as [<-|Hn].
      * exists k. apply sget_sset_same.
      * rewrite sget_sset_other by exact Hn. destruct (String.eqb_spec i name) as [<-|Hi].
        { exfalso. apply Hr. exists out. apply in_or_app. right. now left. }
        rewrite sget_sdel_other by exact Hi. apply (fp_complete _ _ F).
        -- destruct (defined_snoc _ _ _ Hd) as [H|[[H|[]] _]]; [exact H|congruence].
        -- intros [o Ho]. apply Hr. exists o. apply in_or_app. now left.
    + intros k' ins'. rewrite (fp_in _ _ F). split.
      * intros [b [o [a [-> ->]]]]. exists b, o, (a ++ [OBypass i out]). split; [now rewrite <- app_assoc|reflexivity].
      * intros [b [o [a [Eb ->]]]]. destruct (exists_last (l := OLayer ins' o :: a) ltac:(discriminate)) as [a' [z Ez]].
        rewrite Ez, app_assoc in Eb. apply app_inj_tail in Eb. destruct Eb as [Eb <-].
        destruct a' as [|y a']; [discriminate|]. cbn in Ez. injection Ez as <- _. exists b, o, a'. now split.
    + apply (fp_in_ordered _ _ F).
  - (* Constant *)
    eexists. split; [reflexivity|]. constructor.
    + rewrite (fp_count _ _ F), layers_in_app. cbn. lia.
    + apply (fp_sound _ _ F).
    + intros name k K. apply defined_mono. exact (fp_dom _ _ F _ _ K).
    + apply (fp_below _ _ F).
    + intros name Hd Hr. apply (fp_complete _ _ F).
      * destruct (defined_snoc _ _ _ Hd) as [H|[_ []]]; exact H.
      * intros [o Ho]. apply Hr. exists o. apply in_or_app. now left.
    + intros k' ins'. rewrite (fp_in _ _ F). split.
      * intros [b [o [a [-> ->]]]]. exists b, o, (a ++ [OConstant out]). split; [now rewrite <- app_assoc|reflexivity].
      * intros [b [o [a [Eb ->]]]]. destruct (exists_last (l := OLayer ins' o :: a) ltac:(discriminate)) as [a' [z Ez]].
        rewrite Ez, app_assoc in Eb. apply app_inj_tail in Eb. destruct Eb as [Eb <-].
        destruct a' as [|y a']; [discriminate|]. cbn in Ez. injection Ez as <- _. exists b, o, a'. now split.
    + apply (fp_in_ordered _ _ F).
Qed.
Lemma first_pass_steps rest : forall done st,
  o_nodes M = done ++ rest -> first_pass done st ->
  exists st', onnx_steps st rest = Some st' /\ first_pass (o_nodes M) st'.
Proof.
  induction rest as [|nd r IH]; intros done st E F.
  - exists st. split; [reflexivity|]. rewrite E, app_nil_r. exact F.
  - destruct (first_pass_step done nd r st E F) as [st1 [E1 F1]]. cbn [onnx_steps]. rewrite E1. cbn [bind].
    apply (IH (done ++ [nd]) st1); [rewrite <- app_assoc; exact E|exact F1].
Qed.

(** keys of dict_input are distinct *)
Lemma onnx_steps_keys nds : forall st st', onnx_steps st nds = Some st' ->
  NoDup (map fst (o_in st)) -> Forall (fun e => fst e < o_count st) (o_in st) -> NoDup (map fst (o_in st')).
Proof.
  assert (forall st k (ins : list string), NoDup (map fst (o_in st)) -> Forall (fun e => fst e < o_count st) (o_in st) -> k = o_count st ->
            NoDup (map fst (o_in st ++ [(k, ins)]))) as Hadd.
  { intros st k ins Hn Hf ->. rewrite map_app. cbn. apply NoDup_Add with (a := o_count st) (l := map fst (o_in st)).
    - rewrite <- (app_nil_r (map fst (o_in st))) at 1. apply Add_app.
    - split; [exact Hn|]. intros K. apply in_map_iff in K. destruct K as [e [Ee He]]. rewrite Forall_forall in Hf. specialize (Hf _ He). lia. }
  induction nds as [|nd r IH]; intros st st' E Hn Hf; cbn [onnx_steps] in E.
  - injection E as <-. exact Hn.
  - destruct (onnx_step st nd) as [st1|] eqn:E1; cbn [bind] in E; [|discriminate].
    apply (IH _ _ E).
    + destruct nd; cbn [onnx_step] in E1.
      * injection E1 as <-. cbn [o_in]. now apply Hadd.
      * injection E1 as <-. cbn [o_in]. now apply Hadd.
      * destruct (sget (o_out st) input); cbn [bind] in E1; [|discriminate]. injection E1 as <-. exact Hn.
      * injection E1 as <-. exact Hn.
      * discriminate.
    + destruct nd; cbn [onnx_step] in E1.
      * injection E1 as <-. cbn [o_in o_count]. apply Forall_app. split; [eapply Forall_impl; [|exact Hf]; cbn; intros; lia|constructor; [cbn; lia|constructor]].
      * injection E1 as <-. cbn [o_in o_count]. apply Forall_app. split; [eapply Forall_impl; [|exact Hf]; cbn; intros; lia|constructor; [cbn; lia|constructor]].
      * destruct (sget (o_out st) input); cbn [bind] in E1; [|discriminate]. injection E1 as <-. exact Hf.
      * injection E1 as <-. exact Hf.
      * discriminate.
Qed.

(** ** Linking *)
Section Linking.
Variable d0 : sdict.
Variable m : nat.
Hypothesis d0_sound : forall name k, sget d0 name = Some k -> output_of_layer M name k.
(** every input of a layer is in the dictionary or is an initialiser *)
Definition linkable (name : string) : Prop := (exists k, sget d0 name = Some k) \/ In name (o_initializers M).
Record linking (st : link_state) : Prop := {
  lk_out : forall name k, sget (l_out st) name = Some k ->
    sget d0 name = Some k \/ (sget d0 name = None /\ In name (o_initializers M) /\ In (k, name) (l_consts st));
  lk_d0 : forall name k, sget d0 name = Some k -> sget (l_out st) name = Some k }.
(** [name] is read from layer [k] *)
Definition reads (cs : list (nat * string)) (name : string) (k : nat) : Prop :=
  sget d0 name = Some k \/ (sget d0 name = None /\ In name (o_initializers M) /\ In (k, name) cs).
Lemma link_one k st name : linking st -> linkable name ->
  exists st' p, onnx_link_one (o_initializers M) k st name = Some st' /\ linking st' /\
    incl (l_consts st) (l_consts st') /\ reads (l_consts st') name p /\
    lprev (l_links st') k = lprev (l_links st) k ++ [p] /\
    (forall i, i <> k -> lprev (l_links st') i = lprev (l_links st) i).
Proof.
  intros [H1 H2] Hl. unfold onnx_link_one. destruct (sget (l_out st) name) as [p|] eqn:Ep.
  - eexists. exists p. split; [reflexivity|]. split; [now constructor|]. cbn [l_consts l_links].
    split; [apply incl_refl|]. split; [exact (H1 _ _ Ep)|]. split; [apply connect_prev_same|].
    intros i Hi. now apply connect_prev_other.
  - assert (sget d0 name = None) as Hd.
    { destruct (sget d0 name) eqn:K; [|reflexivity]. rewrite (H2 _ _ K) in Ep. discriminate. }
    destruct Hl as [[k0 K]|Hin]; [congruence|].
    assert (existsb (String.eqb name) (o_initializers M) = true) as ->.
    { apply existsb_exists. exists name. split; [exact Hin|apply String.eqb_refl]. }
    eexists. exists (l_count st). split; [reflexivity|]. cbn [l_consts l_links].
    split.
    { constructor; cbn [l_out l_consts].
      - intros n k'. destruct (String.eqb_spec name n) as [<-|Hn].
        + rewrite sget_sset_same. intros [= <-]. right. split; [exact Hd|]. split; [exact Hin|]. apply in_or_app. right. now left.
        + rewrite sget_sset_other by exact Hn. intros K. destruct (H1 _ _ K) as [K'|[K1 [K2 K3]]]; [now left|right].
          split; [exact K1|]. split; [exact K2|]. apply in_or_app. now left.
      - intros n k' K. destruct (String.eqb_spec name n) as [<-|Hn]; [congruence|]. rewrite sget_sset_other by exact Hn. now apply H2. }
    split; [apply incl_appl, incl_refl|]. split.
    { right. split; [exact Hd|]. split; [exact Hin|]. apply in_or_app. right. now left. }
    split; [apply connect_prev_same|]. intros i Hi. now apply connect_prev_other.
Qed.
Lemma reads_mono cs cs' name k : incl cs cs' -> reads cs name k -> reads cs' name k.
Proof. intros H [K|[K1 [K2 K3]]]; [now left|right]. auto. Qed.
Lemma link_inputs k names : forall st, linking st -> Forall linkable names ->
  exists st' ps, onnx_link_inputs (o_initializers M) k st names = Some st' /\ linking st' /\
    incl (l_consts st) (l_consts st') /\ Forall2 (reads (l_consts st')) names ps /\
    lprev (l_links st') k = lprev (l_links st) k ++ ps /\
    (forall i, i <> k -> lprev (l_links st') i = lprev (l_links st) i).
Proof.
  induction names as [|n r IH]; intros st L Hl.
  - exists st, []. cbn. rewrite app_nil_r. split; [reflexivity|]. split; [exact L|]. split; [apply incl_refl|]. split; [constructor|]. split; auto.
  - inversion Hl; subst. destruct (link_one k st n L H1) as [st1 [p [E1 [L1 [I1 [R1 [P1 O1]]]]]]].
    destruct (IH st1 L1 H2) as [st' [ps [E2 [L2 [I2 [R2 [P2 O2]]]]]]].
    exists st', (p :: ps). cbn [onnx_link_inputs]. rewrite E1. cbn [bind]. split; [exact E2|]. split; [exact L2|].
    split; [exact (incl_tran I1 I2)|]. split; [constructor; [exact (reads_mono _ _ _ _ I2 R1)|exact R2]|].
    split; [rewrite P2, P1, <- app_assoc; reflexivity|]. intros i Hi. rewrite O2, O1; auto.
Qed.
Lemma link_all din : forall st, linking st -> Forall (fun e => Forall linkable (snd e)) din -> NoDup (map fst din) ->
  (forall k, In k (map fst din) -> lprev (l_links st) k = []) ->
  exists st', onnx_link (o_initializers M) st din = Some st' /\ linking st' /\
    incl (l_consts st) (l_consts st') /\
    (forall k ins, In (k, ins) din -> Forall2 (reads (l_consts st')) ins (lprev (l_links st') k)) /\
    (forall i, ~ In i (map fst din) -> lprev (l_links st') i = lprev (l_links st) i).
Proof.
  induction din as [|[k ins] r IH]; intros st L Hl Hn Hz.
  - exists st. cbn. split; [reflexivity|]. split; [exact L|]. split; [apply incl_refl|]. split; [intros ? ? []|auto].
  - inversion Hl; subst. cbn in Hn. inversion Hn; subst.
    destruct (link_inputs k ins st L H1) as [st1 [ps [E1 [L1 [I1 [R1 [P1 O1]]]]]]].
    destruct (IH st1 L1 H2 H4) as [st' [E2 [L2 [I2 [R2 O2]]]]].
    { intros k' Hk'. rewrite O1; [apply Hz; now right|]. intros ->. contradiction. }
    exists st'. cbn [onnx_link]. rewrite E1. cbn [bind]. split; [exact E2|]. split; [exact L2|]. split; [exact (incl_tran I1 I2)|]. split.
    + intros k' ins' [[= <- <-]|K]; [|exact (R2 _ _ K)].
      rewrite O2 by exact H3. rewrite P1, (Hz k (or_introl eq_refl)). cbn.
      eapply Forall2_impl; [|exact R1]. intros; eapply reads_mono; eauto.
    + intros i Hi. cbn in Hi. rewrite O2, O1; auto.
Qed.
End Linking.

Theorem load_onnx_correct : exists g cs,
  load_onnx M = Some (g, cs) /\ linked g /\ acyclic g /\ constants_are_sources g /\
  (forall before ins out after, o_nodes M = before ++ OLayer ins out :: after ->
     Forall2 (held_by M cs) ins (previous_layer g (length (o_inputs M) + layers_in before))) /\
  (forall i, i < length (o_inputs M) -> previous_layer g i = []) /\
  (forall c, is_constant g c = true -> length (o_inputs M) + layers_in (o_nodes M) <= c).
Proof.
  destruct (first_pass_steps (o_nodes M) [] _ eq_refl first_pass_start) as [st [E1 F]].
  pose proof (onnx_steps_ok _ _ _ E1 (onnx_inputs_ok _ _ empty_ostate_ok)) as Hs.
  set (s0 := mkLState (o_count st) (o_out st) no_links []).
  destruct (link_all (o_out st) (o_in st) s0) as [l [E2 [L2 [I2 [R2 O2]]]]].
  - constructor; cbn [s0 l_out]; auto.
  - apply Forall_forall. intros [k ins] Hk. cbn [snd]. apply Forall_forall. intros name Hn.
    destruct (fp_in_ordered _ _ F _ _ Hk _ Hn) as [[k' [_ Hk']]|[Hi _]]; [|now right].
    left. apply (fp_complete _ _ F).
    + clear - Hk'. induction Hk' as [b n a E|b i n a E|b i n a k E H IH].
      * left. rewrite E. apply in_elt.
      * right. exists (OLayer i n). split; [rewrite E; apply in_elt|]. split; [now left|exact I].
      * right. exists (OBypass i n). split; [rewrite E; apply in_elt|]. split; [now left|exact I].
    + intros [o Ho]. apply (fp_in _ _ F) in Hk. destruct Hk as [b [o' [a [E _]]]].
      destruct (in_split _ _ Ho) as [b2 [a2 E']].
      refine (im_identity M IM b2 name o a2 (OLayer ins o') E' _ Hn).
      assert (In (OLayer ins o') (o_nodes M)) as K by (rewrite E; apply in_elt). rewrite E' in K.
      apply in_app_iff in K. destruct K as [K|[K|K]]; [|discriminate|]; apply in_or_app; auto.
  - apply (onnx_steps_keys _ _ _ E1).
    + destruct (onnx_inputs_spec (o_inputs M) (mkOState 0 [] []) []) as [_ [-> _]]; try reflexivity; try (cbn; intros; discriminate || contradiction). constructor.
    + apply onnx_inputs_ok, empty_ostate_ok.
  - reflexivity.
  - pose proof (onnx_link_ok _ _ _ _ _ E2 (proj2 Hs) (start_lstate_ok _ Hs)) as [H1 H2 H3 H4 H5 H6].
    set (g := mkGraph (seq 0 (l_count l)) (lprev (l_links l)) (lnext (l_links l))
          (fun i => existsb (fun e => Nat.eqb i (fst e)) (l_consts l))).
    assert (load_onnx M = Some (g, l_consts l)) as EL.
    { unfold load_onnx. rewrite E1. cbn [bind]. fold s0. rewrite E2. reflexivity. }
    exists g, (l_consts l). split; [exact EL|]. destruct (load_onnx_linked _ _ _ EL) as [G1 [G2 [_ G3]]].
    assert (forall k, In k (map fst (o_in st)) -> length (o_inputs M) <= k < o_count st) as Hkeys.
    { intros k Hk. apply in_map_iff in Hk. destruct Hk as [[k' ins] [<- Hk]]. cbn.
      split; [|pose proof (proj2 Hs) as K; rewrite Forall_forall in K; exact (K _ Hk)].
      apply (fp_in _ _ F) in Hk. destruct Hk as [b [o [a [_ ->]]]]. lia. }
    assert (forall c name, In (c, name) (l_consts l) -> o_count st <= c) as Hcst.
    { intros c n Hc. rewrite Forall_forall in H5. specialize (H5 _ Hc). cbn in H5. lia. }
    split; [exact G1|]. split.
    { apply (symmetric_acyclic _ _ _ (fun i => if i <? o_count st then S i else 0)); [exact H2|exact H3|].
      intros s p Hp.
      destruct (in_dec Nat.eq_dec s (map fst (o_in st))) as [Hs'|Hs'].
      2: { rewrite O2 in Hp by exact Hs'. destruct Hp. }
      destruct (Hkeys _ Hs') as [_ Hlt]. rewrite (proj2 (Nat.ltb_lt s _) Hlt).
      apply in_map_iff in Hs'. destruct Hs' as [[s' ins] [Es Hk]]. cbn in Es. subst s'.
      pose proof (R2 _ _ Hk) as RR. assert (exists name, In name ins /\ reads (o_out st) (l_consts l) name p) as [name [Hn Hr]].
      { clear - RR Hp. induction RR; [destruct Hp|]. destruct Hp as [->|Hp]; [exists x; split; [now left|assumption]|].
        destruct (IHRR Hp) as [n [K1 K2]]. exists n. split; [now right|assumption]. }
      destruct Hr as [Hr|[_ [_ Hr]]].
      - destruct (fp_in_ordered _ _ F _ _ Hk _ Hn) as [[k' [Hlt' Hk']]|[_ Hnd]].
        + rewrite <- (output_of_layer_unique _ _ Hk' p (fp_sound _ _ F _ _ Hr)). destruct (k' <? o_count st); lia.
        + exfalso. apply Hnd. exact (fp_dom _ _ F _ _ Hr).
      - apply Hcst in Hr. destruct (Nat.ltb_spec p (o_count st)); lia. }
    split; [exact G2|]. split; [|split].
    + intros before ins out after E. cbn [g previous_layer].
      assert (In (length (o_inputs M) + layers_in before, ins) (o_in st)) as Hk by (apply (fp_in _ _ F); now exists before, out, after).
      eapply Forall2_impl; [|exact (R2 _ _ Hk)]. intros name k [K|[_ [K1 K2]]]; [left; exact (fp_sound _ _ F _ _ K)|right; auto].
    + intros i Hi. cbn [g previous_layer]. rewrite O2; [reflexivity|]. intros K. apply Hkeys in K. lia.
    + intros c Hc. apply G3 in Hc. destruct Hc as [n Hn]. apply Hcst in Hn. rewrite <- (fp_count _ _ F). exact Hn.
Qed.
End Importable.
