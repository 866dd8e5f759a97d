(** * A name that nothing defines cannot be linked (used by C72). *)
From Coq Require Import String.
From Coq Require Import ZArith List Lia Bool Reals.
Import ListNotations.
Open Scope list_scope.
Open Scope Z_scope.
From Verif Require Import CMem Num RealInst Graph Import ImportProofs LayerKinds.
From Verif Require Import OnnxOps OnnxSpec ExportSpec OnnxModelSpec OnnxModel.

Lemma chars_in pre ch suf : In (String ch EmptyString) (chars (String.append pre (String ch suf))).
Proof. unfold chars. induction pre as [|c pre IH]; cbn; [left; reflexivity|right; exact IH]. Qed.

Section Names.
  Variable c : string.
  Variable inits : list string.
  Hypothesis NI : ~ In c inits.
  Lemma link_one_keeps k st nm st' : sget (l_out st) c = None -> onnx_link_one inits k st nm = Some st' -> sget (l_out st') c = None.
  Proof.
    intros H. unfold onnx_link_one. destruct (sget (l_out st) nm).
    - intros E. injection E as <-. exact H.
    - destruct (existsb (String.eqb nm) inits) eqn:EX; [|discriminate]. intros E. injection E as <-. cbn [l_out].
      rewrite sget_sset_other; [exact H|]. intros ->. apply NI. apply existsb_exists in EX. destruct EX as (z & Hz & E). apply String.eqb_eq in E. subst. exact Hz.
  Qed.
  Lemma link_one_fails k st : sget (l_out st) c = None -> onnx_link_one inits k st c = None.
  Proof.
    intros H. unfold onnx_link_one. rewrite H. destruct (existsb (String.eqb c) inits) eqn:EX; [|reflexivity]. exfalso. apply NI.
    apply existsb_exists in EX. destruct EX as (z & Hz & E). apply String.eqb_eq in E. subst. exact Hz.
  Qed.
  Lemma link_inputs_keeps k names st st' : sget (l_out st) c = None -> onnx_link_inputs inits k st names = Some st' -> sget (l_out st') c = None /\ ~ In c names.
  Proof.
    revert st. induction names as [|n names IH]; intros st H; cbn [onnx_link_inputs].
    - intros E. injection E as <-. split; [exact H|intros []].
    - destruct (onnx_link_one inits k st n) as [st1|] eqn:E1; [|discriminate]. cbn [bind]. intros E. destruct (IH st1 (link_one_keeps _ _ _ _ H E1) E) as (A & B).
      split; [exact A|]. intros [->|Hc]; [|exact (B Hc)]. rewrite (link_one_fails k st H) in E1. discriminate.
  Qed.
  Lemma link_fails din st k names : sget (l_out st) c = None -> In (k, names) din -> In c names -> onnx_link inits st din = None.
  Proof.
    revert st. induction din as [|(k' & names') din IH]; intros st H Hin Hc; [destruct Hin|]. cbn [onnx_link].
    destruct (onnx_link_inputs inits k' st names') as [st1|] eqn:E1; [|reflexivity]. cbn [bind]. destruct (link_inputs_keeps _ _ _ _ H E1) as (A & B).
    destruct Hin as [E|Hin]; [injection E as -> ->; contradiction|]. apply (IH st1 A Hin Hc).
  Qed.
  Definition outputs_of (nd : onnx_node) : list string := match nd with OLayer _ o | OString _ o | OBypass _ o => [o] | _ => [] end.
  Lemma steps_keep nds st st' : sget (o_out st) c = None -> (forall nd, In nd nds -> ~ In c (outputs_of nd)) -> onnx_steps st nds = Some st' ->
    sget (o_out st') c = None /\ (forall e, In e (o_in st) -> In e (o_in st')) /\
    forall names out, In (OLayer names out) nds -> exists k, In (k, names) (o_in st').
  Proof.
    revert st. induction nds as [|nd nds IH]; intros st H HN; cbn [onnx_steps].
    - intros E. injection E as <-. split; [exact H|]. split; [auto|intros ? ? []].
    - destruct (onnx_step st nd) as [st1|] eqn:E1; [|discriminate]. cbn [bind]. intros E.
      assert (X : sget (o_out st1) c = None /\ (forall e, In e (o_in st) -> In e (o_in st1)) /\ forall names out, nd = OLayer names out -> exists k, In (k, names) (o_in st1)).
      { pose proof (HN nd (or_introl eq_refl)) as NO. destruct nd as [ins out|s out|i out|out|]; cbn [onnx_step outputs_of] in E1, NO.
        - injection E1 as <-. cbn [o_out o_in]. split; [rewrite sget_sset_other; [exact H|intros ->; apply NO; left; reflexivity]|]. split; [intros e He; apply in_or_app; left; exact He|].
          intros names o E'. injection E' as -> _. eexists. apply in_or_app. right. left. reflexivity.
        - injection E1 as <-. cbn [o_out o_in]. split; [rewrite sget_sset_other; [exact H|intros ->; apply NO; left; reflexivity]|]. split; [intros e He; apply in_or_app; left; exact He|discriminate].
        - destruct (sget (o_out st) i) eqn:EI; [|discriminate]. cbn [bind] in E1. injection E1 as <-. cbn [o_out o_in]. split; [|split; [auto|discriminate]].
          rewrite sget_sset_other by (intros ->; apply NO; left; reflexivity). rewrite sget_sdel_other; [exact H|intros ->; congruence].
        - injection E1 as <-. split; [exact H|]. split; [auto|discriminate].
        - discriminate. }
      destruct X as (X1 & X2 & X3). destruct (IH st1 X1 (fun nd' Hn => HN nd' (or_intror Hn)) E) as (A & B & C). split; [exact A|]. split; [intros e He; apply B, X2, He|].
      intros names out [E'|Hin]; [destruct (X3 _ _ E') as (k & Hk); exists k; apply B; exact Hk|exact (C _ _ Hin)].
  Qed.
  Lemma inputs_keep names st : sget (o_out st) c = None -> ~ In c names -> sget (o_out (onnx_inputs names st)) c = None.
  Proof.
    revert st. induction names as [|n names IH]; intros st H HN; cbn [onnx_inputs]; [exact H|]. apply IH; [|intros Hc; apply HN; right; exact Hc].
    cbn [o_out]. rewrite sget_sset_other; [exact H|]. intros ->. apply HN. left. reflexivity.
  Qed.
  Lemma load_fails inputs nds names out : ~ In c inputs -> (forall nd, In nd nds -> ~ In c (outputs_of nd)) -> In (OLayer names out) nds -> In c names ->
    load_onnx (mkOnnx inputs inits nds) = None.
  Proof.
    intros H1 H2 H3 H4. unfold load_onnx. cbn [o_inputs o_nodes o_initializers].
    destruct (onnx_steps (onnx_inputs inputs (mkOState 0 [] [])) nds) as [st|] eqn:E; [|reflexivity]. cbn [bind].
    destruct (steps_keep _ _ _ (inputs_keep inputs (mkOState 0 [] []) eq_refl H1) H2 E) as (A & _ & B). destruct (B _ _ H3) as (k & Hk).
    rewrite (link_fails _ (mkLState (o_count st) (o_out st) no_links []) k names A Hk H4). reflexivity.
  Qed.
End Names.

Lemma all_some_in {A B} (f : A -> option B) l r : all_some (map f l) = Some r -> (forall a, In a l -> exists b, f a = Some b /\ In b r) /\ (forall b, In b r -> exists a, In a l /\ f a = Some b).
Proof.
  revert r. induction l as [|a l IH]; intros r E; cbn [map all_some] in E.
  - injection E as <-. split; [intros ? []|intros ? []].
  - destruct (f a) as [b|] eqn:Ea; [|discriminate]. cbn [bind] in E. destruct (all_some (map f l)) as [r'|] eqn:Er; [|discriminate]. cbn [bind] in E. injection E as <-.
    destruct (IH _ eq_refl) as (I1 & I2). split.
    + intros a' [<-|Ha]; [exists b; split; [exact Ea|left; reflexivity]|]. destruct (I1 _ Ha) as (b' & Eb & Hb). exists b'. split; [exact Eb|right; exact Hb].
    + intros b' [<-|Hb]; [exists a; split; [left; reflexivity|exact Ea]|]. destruct (I2 _ Hb) as (a' & Ha & Ea'). exists a'. split; [right; exact Ha|exact Ea'].
Qed.
Lemma import_node_output impl m nd r : import_node impl m nd = Some r -> outputs_of (fst r) = [n_output nd].
Proof.
  unfold import_node. destruct (bypassed (n_op nd)).
  - destruct (n_inputs nd); [discriminate|]. intros E. injection E as <-. reflexivity.
  - destruct (import_layer impl m nd); [|discriminate]. cbn [bind]. intros E. injection E as <-. reflexivity.
Qed.
Definition apart : list string := ["Tile"; "ReduceSum"; "ReduceMean"; "ReduceProd"; "ReduceMax"; "ReduceMin"]%string.
Lemma apart_names impl m op a i rest o rec L : In op apart -> import_layer impl m (mkONode op a (i :: rest) o) = Some (rec, L) -> rec = chars i.
Proof.
  intros IO E. unfold import_layer in E. cbn [n_op n_attrs n_inputs n_output] in E. unfold apart in IO. cbn [In] in IO.
  repeat (destruct IO as [<-|IO]; [cbn [reduction_of String.eqb Ascii.eqb Bool.eqb] in E|]); [..|destruct IO];
  repeat (cbn [bind fst snd] in E;
      match type of E with
      | bind ?e _ = _ => destruct e; cbn [bind] in E; try discriminate E
      | context [match ?x with _ => _ end] => destruct x; try discriminate E
      end); injection E as <- <-; reflexivity.
Qed.
Lemma apart_recorded impl m nd i rest r : In (n_op nd) apart -> n_inputs nd = i :: rest -> import_node impl m nd = Some r -> fst r = OLayer (chars i) (n_output nd).
Proof.
  destruct nd as [op a ins o]. cbn [n_op n_inputs n_output]. intros IO ->. unfold import_node. cbn [n_op n_inputs n_output].
  assert (NB : bypassed op = false) by (unfold apart in IO; cbn [In] in IO; repeat (destruct IO as [<-|IO]; [reflexivity|]); destruct IO). rewrite NB.
  destruct (import_layer impl m (mkONode op a (i :: rest) o)) as [(rec & L)|] eqn:E; [|discriminate]. cbn [bind]. intros E'. injection E' as <-. cbn [fst]. rewrite (apart_names _ _ _ _ _ _ _ _ _ IO E). reflexivity.
Qed.
Lemma apart_fails impl m nd pre ch suf rest : In nd (s_nodes m) -> In (n_op nd) apart -> n_inputs nd = String.append pre (String ch suf) :: rest ->
  ~ In (String ch EmptyString) (defined_names m) -> load_model impl m = None.
Proof.
  intros Hn IO EI ND. unfold load_model. destruct (all_some (map (import_node impl m) (s_nodes m))) as [nds|] eqn:EN; [|reflexivity]. cbn [bind].
  destruct (all_some_in _ _ _ EN) as (A & B). destruct (A nd Hn) as (r & Er & Hr). pose proof (apart_recorded _ _ _ _ _ _ IO EI Er) as FR.
  unfold defined_names in ND. rewrite !in_app_iff in ND.
  rewrite (load_fails (String ch EmptyString) (map fst (s_init m)) ltac:(tauto) (map fst (s_inputs m)) (map fst nds) (chars (String.append pre (String ch suf))) (n_output nd)); [reflexivity|tauto| | |apply chars_in].
  - intros z Hz. apply in_map_iff in Hz. destruct Hz as (r' & <- & Hr'). destruct (B _ Hr') as (nd' & Hn' & E'). rewrite (import_node_output _ _ _ _ E'). intros [E|[]]. apply ND. right. right. apply in_map_iff. exists nd'. split; assumption.
  - rewrite <- FR. apply in_map. exact Hr.
Qed.
