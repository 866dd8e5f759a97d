(** * Names of the exported graph are unambiguous (used by C67 and C68). *)
From Coq Require Import String Ascii.
From Coq Require Import ZArith List Lia Bool Reals Decimal DecimalString DecimalNat Permutation.
Import ListNotations.
From Verif Require Import CMem Num RealInst Activation Reduce Graph GraphSpec LayerKinds ExportSpec Export.
From Verif Require Broadcast.
Open Scope string_scope.
Open Scope list_scope.

(** ** Strings. *)
Lemma append_inj (a r r' : string) : (a ++ r = a ++ r')%string -> r = r'.
Proof. induction a as [|c a IH]; intros H; [exact H|]. cbn in H. injection H as H. apply IH. exact H. Qed.
Lemma append_assoc (a b c : string) : ((a ++ b) ++ c = a ++ b ++ c)%string.
Proof. induction a as [|x a IH]; [reflexivity|]. cbn. f_equal. exact IH. Qed.
Lemma append_nil (a : string) : (a ++ "" = a)%string.
Proof. induction a as [|x a IH]; [reflexivity|]. cbn. f_equal. exact IH. Qed.
Lemma prefix_or (a : string) : forall b r r', (a ++ r = b ++ r')%string -> prefix a b = true \/ prefix b a = true.
Proof.
  induction a as [|c a IH]; intros b r r' H.
  - left. destruct b; reflexivity.
  - destruct b as [|d b]; [right; reflexivity|]. cbn in H. injection H as -> H. cbn.
    destruct (ascii_dec d d) as [_|NE]; [|congruence]. exact (IH b r r' H).
Qed.

Fixpoint plain (s : string) : Prop := match s with EmptyString => True | String c r => c <> "_"%char /\ plain r end.
Definition suffix_ok (s : string) : Prop := s = "" \/ exists r, s = String "_"%char r.
Lemma plain_split (d : string) : forall d' s s', plain d -> plain d' -> suffix_ok s -> suffix_ok s' ->
  (d ++ s = d' ++ s')%string -> d = d' /\ s = s'.
Proof.
  induction d as [|c d IH]; intros d' s s' Pd Pd' Ss Ss' H.
  - destruct d' as [|c' d']; [split; [reflexivity|exact H]|]. cbn in H. destruct Pd' as (NE & _).
    destruct Ss as [->|(r & ->)]; [discriminate|]. injection H as <- _. congruence.
  - destruct d' as [|c' d'].
    + cbn in H. destruct Pd as (NE & _). destruct Ss' as [->|(r & ->)]; [discriminate|]. injection H as -> _. congruence.
    + cbn in H. injection H as <- H. destruct Pd as (NE & Pd), Pd' as (_ & Pd').
      destruct (IH d' s s' Pd Pd' Ss Ss' H) as (-> & ->). split; reflexivity.
Qed.
Lemma digits_plain u : plain (NilEmpty.string_of_uint u).
Proof. induction u; cbn; try exact I; (split; [discriminate|assumption]). Qed.
Lemma str_of_nat_inj n m : str_of_nat n = str_of_nat m -> n = m.
Proof.
  intros H. unfold str_of_nat in H. apply (f_equal NilEmpty.uint_of_string) in H. rewrite !NilEmpty.usu in H. injection H as H.
  rewrite <- (Unsigned.of_to n), <- (Unsigned.of_to m), H. reflexivity.
Qed.

(** ** Class names: none, followed by an underscore, starts another one. *)
Definition class_names : list string :=
  ["Input_layer"; "Constant"; "Sigmoid"; "Silu"; "Relu"; "Leakyrelu"; "Hyperb_tan"; "Linear"; "Exponential"; "Logarithm"; "Clip";
   "Dense"; "MatMul"; "Gemm"; "BatchNormalization"; "Transpose"; "Concatenate"; "Gather"; "GatherElements"; "Tile"; "Flatten";
   "Conv2D"; "MaxPooling2D"; "AveragePooling2D"; "ConstantPad"; "EdgePad"; "ReflectPad"; "WrapPad";
   "Add"; "Subtract"; "Multiply"; "Divide"; "Maximum"; "Minimum"; "Average";
   "ReduceSum"; "ReduceMean"; "ReduceProd"; "ReduceMax"; "ReduceMin"; "Softmax"; "ResizeNearest"; "ResizeLinear"; "ResizeCubic"].
Lemma layer_name_in l : In (layer_name l) class_names.
Proof.
  unfold layer_name. destruct l as [k a]. cbn [lkind lact].
  assert (G : forall s, existsb (String.eqb s) class_names = true -> In s class_names).
  { intros s H. apply existsb_exists in H. destruct H as (x & Hx & E). apply String.eqb_eq in E. subst. exact Hx. }
  apply G. destruct k; try (vm_compute; reflexivity); try (destruct a; vm_compute; reflexivity); try (destruct k; vm_compute; reflexivity); try (destruct mode; vm_compute; reflexivity).
Qed.
Lemma class_names_prefix_free : forall c c', In c class_names -> In c' class_names ->
  prefix (c ++ "_")%string (c' ++ "_")%string = true -> c = c'.
Proof.
  assert (B : forallb (fun c => forallb (fun c' => String.eqb c c' || negb (prefix (c ++ "_")%string (c' ++ "_")%string)) class_names) class_names = true)
    by (vm_compute; reflexivity).
  intros c c' Hc Hc' H. rewrite forallb_forall in B. specialize (B c Hc). rewrite forallb_forall in B. specialize (B c' Hc').
  rewrite H in B. cbn in B. rewrite orb_false_r in B. apply String.eqb_eq. exact B.
Qed.

Ltac reify n l := lazymatch l with nil => constr:(@nil string) | Export.named _ n ?s :: ?r => let r' := reify n r in constr:(s :: r') end.
Section Names.
  Context (md : model Rnum) (ex : nat -> extra).
  Notation named := (named md).
  Notation base := (base md).
  Lemma named_inj n m s t : suffix_ok s -> suffix_ok t -> named n s = named m t -> n = m /\ s = t.
  Proof.
    intros Hs Ht H. unfold Export.named, Export.base in H. set (c := layer_name (md_layer Rnum md n)) in *. set (c' := layer_name (md_layer Rnum md m)) in *.
    rewrite !append_assoc in H.
    assert (E : c = c').
    { assert (H' : ((c ++ "_") ++ (str_of_nat n ++ s) = (c' ++ "_") ++ (str_of_nat m ++ t))%string) by (rewrite !append_assoc; exact H).
      destruct (prefix_or _ _ _ _ H') as [P|P].
      - apply class_names_prefix_free; [apply layer_name_in|apply layer_name_in|exact P].
      - symmetry. apply class_names_prefix_free; [apply layer_name_in|apply layer_name_in|exact P]. }
    rewrite E in H. apply append_inj in H. cbn in H. injection H as H.
    destruct (plain_split _ _ s t (digits_plain _) (digits_plain _) Hs Ht H) as (E1 & E2).
    split; [apply str_of_nat_inj; exact E1|exact E2].
  Qed.
  Lemma named_nil n : named n "" = base n.
  Proof. apply append_nil. Qed.
  Lemma base_inj n m : base n = base m -> n = m.
  Proof. intros H. rewrite <- !named_nil in H. apply named_inj in H; [apply H|left; reflexivity|left; reflexivity]. Qed.
  Lemma named_not_empty n s : named n s <> "".
  Proof.
    unfold Export.named, Export.base. pose proof (layer_name_in (md_layer Rnum md n)) as H. destruct (layer_name (md_layer Rnum md n)); [|discriminate].
    intros _. apply (eq_true_false_abs (existsb (String.eqb "") class_names)); [|vm_compute; reflexivity].
    apply existsb_exists. exists "". split; [exact H|reflexivity].
  Qed.

  (** Names defined by the export of one layer. *)
  Definition parts (n : nat) (i : list (string * list Z)) (e : export_result) : list string :=
    map fst i ++ map fst (snd e ++ snd (export_fused md n)) ++ map n_output (fst e ++ fst (export_fused md n)).
  Definition suffixes_of (n : nat) (l : list string) : Prop :=
    exists ss, l = map (named n) ss /\ NoDup ss /\ Forall suffix_ok ss.
  Fixpoint distinct (l : list string) : bool := match l with [] => true | a :: r => negb (existsb (String.eqb a) r) && distinct r end.
  Lemma distinct_ok l : distinct l = true -> NoDup l.
  Proof.
    induction l as [|a l IH]; intros H; [constructor|]. cbn in H. apply andb_true_iff in H. destruct H as (H1 & H2). constructor; [|apply IH; exact H2].
    intros Ha. apply negb_true_iff in H1. rewrite <- not_true_iff_false in H1. apply H1. apply existsb_exists. exists a. split; [exact Ha|apply String.eqb_refl].
  Qed.
  Definition check_suffixes (ss : list string) : bool :=
    forallb (fun s => String.eqb s "" || prefix "_" s) ss && distinct ss.
  Lemma check_ok n l ss : l = map (named n) ss -> check_suffixes ss = true -> suffixes_of n l.
  Proof.
    unfold check_suffixes. intros E H. exists ss. split; [exact E|]. apply andb_true_iff in H. destruct H as (H1 & H2). split.
    - apply distinct_ok. exact H2.
    - apply Forall_forall. intros s Hs. rewrite forallb_forall in H1. specialize (H1 s Hs). apply orb_true_iff in H1. destruct H1 as [H1|H1].
      + left. apply String.eqb_eq. exact H1.
      + right. destruct s as [|c s]; [cbv in H1; discriminate H1|]. cbn [prefix] in H1. destruct (ascii_dec "_" c) as [<-|NE]; [|discriminate H1]. exists s. reflexivity.
  Qed.

  Ltac close n := lazymatch goal with |- suffixes_of n ?l => let ss := reify n l in apply (check_ok n _ ss); reflexivity end.
  (** Input layers have no fused activation (InputLayer has no such argument). *)
  Definition input_kind (n : nat) : Prop := match lk Rnum md n with KInput4 _ _ _ _ | KInput _ _ => True | _ => False end.
  Definition inputs_plain (ls : list nat) : Prop := forall n, In n ls -> input_kind n -> lact Rnum (md_layer Rnum md n) = LinearAct.
  (** Suffixes of the fused activation, and of the node of the layer. *)
  Definition fused_suffixes (n : nat) : list string * list string :=
    if fused md n then
      (match lact Rnum (md_layer Rnum md n) with Clip _ _ => ["_clip_min"; "_clip_max"] | _ => [] end, [""])
    else ([], []).
  Lemma fused_parts n : map fst (snd (export_fused md n)) = map (named n) (fst (fused_suffixes n)) /\
    map n_output (fst (export_fused md n)) = map (named n) (snd (fused_suffixes n)).
  Proof.
    unfold export_fused, fused_suffixes. destruct (fused md n) eqn:F; [|split; reflexivity].
    unfold fused in F. destruct (lact Rnum (md_layer Rnum md n)); cbn [fst snd map n_output]; rewrite ?named_nil; try (split; reflexivity).
    destruct (lkind Rnum (md_layer Rnum md n)); discriminate.
  Qed.
  Lemma output_named n : output_name md n = named n (if fused md n then "_pre_activation" else "").
  Proof. unfold output_name. destruct (fused md n); [reflexivity|]. symmetry. apply named_nil. Qed.

  Lemma parts_suffixes n i e : (input_kind n -> lact Rnum (md_layer Rnum md n) = LinearAct) ->
    export_input md ex n = Some i -> export_layer md ex n = Some e -> suffixes_of n (parts n i e).
  Proof.
    intros HP HI HE. unfold parts. rewrite !map_app. destruct (fused_parts n) as (F1 & F2). rewrite F1, F2.
    unfold export_input in HI. unfold export_layer in HE. unfold input_kind, lk in HP.
    assert (IE : i = [] \/ (i = [(base n, x_shape (ex n))] /\ match lkind Rnum (md_layer Rnum md n) with KInput4 _ _ _ _ | KInput _ _ => True | _ => False end)).
    { destruct (previous_layer (md_graph Rnum md) n); [|left; injection HI as <-; reflexivity].
      destruct (lkind Rnum (md_layer Rnum md n)); try discriminate; injection HI as <-; right; split; auto. }
    clear HI. unfold fused_suffixes. rewrite output_named in HE. unfold fused in *.
    destruct (lkind Rnum (md_layer Rnum md n)) eqn:K.
    1, 2: rewrite (HP I) in *; injection HE as <-; destruct IE as [->|(-> & _)]; cbn [fst snd map Datatypes.app];
      [eapply (check_ok n _ []); reflexivity|eapply (check_ok n _ [""]); [cbn [map]; rewrite named_nil; reflexivity|reflexivity]].
    (* Constant *)
    1: injection HE as <-; destruct IE as [->|(_ & [])]; destruct (lact Rnum (md_layer Rnum md n)); cbn [fst snd map Datatypes.app]; close n.
    (* activation layers *)
    1: destruct IE as [->|(_ & [])]; destruct (lact Rnum (md_layer Rnum md n)); injection HE as <-; cbn [fst snd map Datatypes.app n_output]; close n.
    all: destruct IE as [->|(_ & [])].
    (* Pad: optional inputs *)
    14: injection HE as <-; destruct (x_axes (ex n)), (x_constant (ex n)), (lact Rnum (md_layer Rnum md n)); cbn [fst snd map Datatypes.app n_output]; close n.
    (* element-wise *)
    14: destruct k; try discriminate; (destruct cst as [cst|]; [|match type of HE with context [if ?b then _ else _] => destruct b end]);
      injection HE as <-; destruct (lact Rnum (md_layer Rnum md n)); cbn [fst snd map Datatypes.app n_output]; close n.
    16, 17, 18: destruct (x_axes (ex n)); [discriminate|].
    all: try discriminate; injection HE as <-; destruct (lact Rnum (md_layer Rnum md n)); cbn [fst snd map Datatypes.app n_output]; close n.
  Qed.

  (** ** The whole graph. *)
  Definition keys (n : nat) : list string :=
    match export_input md ex n, export_layer md ex n with Some i, Some e => parts n i e | _, _ => [] end.
  Definition nodes_of (n : nat) : list node :=
    match export_layer md ex n with Some e => fst e ++ fst (export_fused md n) | None => [] end.
  Definition inits_of (n : nat) : list (string * tensor) :=
    match export_layer md ex n with Some e => snd e ++ snd (export_fused md n) | None => [] end.
  Definition ins_of (n : nat) : list (string * list Z) := match export_input md ex n with Some i => i | None => [] end.
  Definition outs_of (n : nat) : list (string * list Z) := export_output md ex n.

  Lemma export_layers_eq ls g : export_layers md ex ls = Some g ->
    g = mkOGraph (flat_map ins_of ls) (flat_map inits_of ls) (flat_map nodes_of ls) (flat_map outs_of ls) /\
    forall n, In n ls -> exists i e, export_input md ex n = Some i /\ export_layer md ex n = Some e.
  Proof.
    revert g. induction ls as [|n r IH]; intros g H; cbn [export_layers] in H.
    - injection H as <-. split; [reflexivity|]. intros n [].
    - destruct (export_input md ex n) as [i|] eqn:EI; [|discriminate]. cbn [bind] in H.
      destruct (export_layer md ex n) as [e|] eqn:EE; [|discriminate]. cbn [bind] in H.
      destruct (export_layers md ex r) as [gr|]; [|discriminate]. cbn [bind] in H. injection H as <-.
      destruct (IH gr eq_refl) as (-> & HA). cbn [g_inputs g_init g_nodes g_outputs]. split.
      + cbn [flat_map]. assert (X1 : ins_of n = i) by (unfold ins_of; rewrite EI; reflexivity). assert (X2 : inits_of n = snd e ++ snd (export_fused md n)) by (unfold inits_of; rewrite EE; reflexivity).
        assert (X3 : nodes_of n = fst e ++ fst (export_fused md n)) by (unfold nodes_of; rewrite EE; reflexivity). rewrite X1, X2, X3. reflexivity.
      + intros m [<-|Hm]; [exists i, e; split; assumption|apply HA; exact Hm].
  Qed.
  Lemma export_layers_some ls : (forall n, In n ls -> exists i e, export_input md ex n = Some i /\ export_layer md ex n = Some e) ->
    export_layers md ex ls = Some (mkOGraph (flat_map ins_of ls) (flat_map inits_of ls) (flat_map nodes_of ls) (flat_map outs_of ls)).
  Proof.
    induction ls as [|n r IH]; intros H; [reflexivity|]. cbn [export_layers].
    destruct (H n (or_introl eq_refl)) as (i & e & EI & EE). rewrite EI, EE. cbn [bind]. rewrite IH by (intros m Hm; apply H; right; exact Hm). cbn [bind g_inputs g_init g_nodes g_outputs].
    cbn [flat_map]. assert (X1 : ins_of n = i) by (unfold ins_of; rewrite EI; reflexivity). assert (X2 : inits_of n = snd e ++ snd (export_fused md n)) by (unfold inits_of; rewrite EE; reflexivity).
        assert (X3 : nodes_of n = fst e ++ fst (export_fused md n)) by (unfold nodes_of; rewrite EE; reflexivity). rewrite X1, X2, X3. reflexivity.
  Qed.

  Lemma keys_split n : (exists i e, export_input md ex n = Some i /\ export_layer md ex n = Some e) ->
    keys n = map fst (ins_of n) ++ map fst (inits_of n) ++ map n_output (nodes_of n).
  Proof. intros (i & e & EI & EE). unfold keys, ins_of, inits_of, nodes_of. rewrite EI, EE. reflexivity. Qed.
  Lemma flat_map_perm ls : (forall n, In n ls -> exists i e, export_input md ex n = Some i /\ export_layer md ex n = Some e) ->
    Permutation (map fst (flat_map ins_of ls) ++ map fst (flat_map inits_of ls) ++ map n_output (flat_map nodes_of ls)) (flat_map keys ls).
  Proof.
    induction ls as [|n r IH]; intros H; [reflexivity|]. cbn [flat_map]. rewrite !map_app, keys_split by (apply H; left; reflexivity).
    rewrite <- IH by (intros m Hm; apply H; right; exact Hm).
    set (a := map fst (ins_of n)). set (b := map fst (inits_of n)). set (c := map n_output (nodes_of n)).
    set (a' := map fst (flat_map ins_of r)). set (b' := map fst (flat_map inits_of r)). set (c' := map n_output (flat_map nodes_of r)).
    rewrite <- !app_assoc. apply Permutation_app_head.
    rewrite (Permutation_app_swap_app a' b). apply Permutation_app_head.
    rewrite (app_assoc a' b' (c ++ c')), (Permutation_app_swap_app (a' ++ b') c), <- app_assoc. reflexivity.
  Qed.
  Lemma keys_named n nm : (input_kind n -> lact Rnum (md_layer Rnum md n) = LinearAct) -> In nm (keys n) -> exists s, suffix_ok s /\ nm = named n s.
  Proof.
    intros HP H. unfold keys in H. destruct (export_input md ex n) as [i|] eqn:EI; [|destruct H]. destruct (export_layer md ex n) as [e|] eqn:EE; [|destruct H].
    destruct (parts_suffixes n i e HP EI EE) as (ss & E & _ & F). rewrite E in H. apply in_map_iff in H. destruct H as (s & <- & Hs).
    exists s. split; [|reflexivity]. rewrite Forall_forall in F. apply F. exact Hs.
  Qed.
  Lemma keys_nodup ls : NoDup ls -> inputs_plain ls -> NoDup (flat_map keys ls).
  Proof.
    induction ls as [|n r IH]; intros ND HP; [constructor|]. inversion ND as [|? ? NI ND']; subst. cbn [flat_map].
    assert (HN : input_kind n -> lact Rnum (md_layer Rnum md n) = LinearAct) by (apply HP; left; reflexivity).
    assert (HR : inputs_plain r) by (intros m Hm; apply HP; right; exact Hm).
    assert (NN : NoDup (keys n)).
    { unfold keys. destruct (export_input md ex n) as [i|] eqn:EI; [|constructor]. destruct (export_layer md ex n) as [e|] eqn:EE; [|constructor].
      destruct (parts_suffixes n i e HN EI EE) as (ss & -> & N & F). clear -N F. induction ss as [|s ss IHs]; [constructor|].
      inversion N; inversion F; subst. cbn [map]. constructor; [|apply IHs; assumption]. intros H. apply in_map_iff in H. destruct H as (t & E & Ht).
      rewrite Forall_forall in H6. destruct (named_inj n n t s) as (_ & ->); auto. }
    specialize (IH ND' HR). revert NN. generalize (fun nm => keys_named n nm HN). generalize (keys n) as l. induction l as [|a l IHl]; intros KN NN; [exact IH|].
    inversion NN; subst. cbn [Datatypes.app]. constructor; [|apply IHl; [intros nm H; apply KN; right; exact H|assumption]].
    intros HI. apply in_app_or in HI. destruct HI as [HI|HI]; [contradiction|]. apply in_flat_map in HI. destruct HI as (m & Hm & HI).
    destruct (KN a (or_introl eq_refl)) as (s & Hs & ->). apply keys_named in HI; [|apply HR; exact Hm]. destruct HI as (t & Ht & E).
    destruct (named_inj n m s t Hs Ht E) as (-> & _). contradiction.
  Qed.

  (** The fused activation reads the node of the layer and its own bounds. *)
  Lemma fused_node n nd : In nd (fst (export_fused md n)) ->
    fused md n = true /\ n_output nd = base n /\
    forall nm, In nm (n_inputs nd) -> nm = named n "_pre_activation" \/ In nm (map fst (snd (export_fused md n))).
  Proof.
    unfold export_fused. intros H. destruct (fused md n); [|destruct H]. split; [reflexivity|].
    destruct (lact Rnum (md_layer Rnum md n)); cbn [fst snd] in H; try (destruct H as [<-|[]]); try (destruct H as []);
      (split; [reflexivity|]); cbn [n_inputs]; intros nm Hn; cbn [In] in Hn; cbn [map fst snd In]; intuition.
  Qed.
  (** The node of a layer reads the operands of the layer, its initialisers or
      the empty name; a layer has at most one (besides the fused activation). *)
  Lemma layer_node n e : export_layer md ex n = Some e ->
    fst e = [] \/ exists nd, fst e = [nd] /\ n_output nd = output_name md n /\
      forall nm, In nm (n_inputs nd) ->
        (exists p, In p (previous_layer (md_graph Rnum md) n) /\ nm = base p) \/ nm = "" \/ In nm (map fst (snd e)).
  Proof.
    intros H. unfold export_layer in H.
    assert (G : forall op a more (inits : list (string * tensor)), (forall nm, In nm more -> nm = "" \/ In nm (map fst inits)) ->
      forall e, e = ([mkONode op a (input_names md n ++ more) (output_name md n)], inits) ->
      fst e = [] \/ exists nd, fst e = [nd] /\ n_output nd = output_name md n /\
      forall nm, In nm (n_inputs nd) ->
        (exists p, In p (previous_layer (md_graph Rnum md) n) /\ nm = base p) \/ nm = "" \/ In nm (map fst (snd e))).
    { intros op a more inits HM e' ->. right. eexists. split; [reflexivity|]. split; [reflexivity|]. cbn [n_inputs snd]. intros nm Hn.
      apply in_app_or in Hn. destruct Hn as [Hn|Hn]; [left|right; apply HM; exact Hn].
      unfold input_names in Hn. apply in_map_iff in Hn. destruct Hn as (p & <- & Hp). exists p. split; [exact Hp|reflexivity]. }
    assert (G0 : forall op a, Some ([mkONode op a (input_names md n) (output_name md n)], @nil (string * tensor)) = Some e ->
      fst e = [] \/ exists nd, fst e = [nd] /\ n_output nd = output_name md n /\
      forall nm, In nm (n_inputs nd) ->
        (exists p, In p (previous_layer (md_graph Rnum md) n) /\ nm = base p) \/ nm = "" \/ In nm (map fst (snd e))).
    { intros op a E. injection E as <-. apply (G op a [] []); [intros ? []|]. rewrite app_nil_r. reflexivity. }
    destruct (lkind Rnum (md_layer Rnum md n)); try discriminate; try (injection H as <-; left; reflexivity); try (eapply G0; exact H).
    all: try (injection H as <-; eapply G; [|reflexivity]; cbn [In map fst]; intros; intuition; fail).
    - destruct (lact Rnum (md_layer Rnum md n)); try (eapply G0; exact H). injection H as <-. left. reflexivity.
    - injection H as <-. eapply G; [|reflexivity]. intros nm Hn. cbn [In] in Hn.
      destruct Hn as [<-|[<-|[<-|[]]]].
      + right. left. reflexivity.
      + destruct (x_constant (ex n)); [|left; reflexivity]. right. right. cbn [map fst snd]. rewrite map_app. apply in_or_app. right. left. reflexivity.
      + destruct (x_axes (ex n)); [left; reflexivity|]. right. right. left. reflexivity.
    - destruct k; try discriminate; (destruct cst as [cst|]; [|match type of H with context [if ?b then _ else _] => destruct b end]);
        try (eapply G0; exact H); (injection H as <-; eapply G; [|reflexivity]; cbn [In map fst]; intros; intuition).
    - destruct (x_axes (ex n)); [discriminate|]. injection H as <-; eapply G; [|reflexivity]; cbn [In map fst]; intros; intuition.
    - destruct (x_axes (ex n)); [discriminate|]. injection H as <-; eapply G; [|reflexivity]; cbn [In map fst]; intros; intuition.
    - destruct (x_axes (ex n)); [discriminate|]. injection H as <-; eapply G; [|reflexivity]; cbn [In map fst]; intros; intuition.
  Qed.
  Lemma node_inputs n l1 nd l2 : nodes_of n = l1 ++ nd :: l2 -> forall nm, In nm (n_inputs nd) ->
    (exists p, In p (previous_layer (md_graph Rnum md) n) /\ nm = base p) \/ nm = "" \/ In nm (map fst (inits_of n)) \/ In nm (map n_output l1) \/
    (fused md n = true /\ exists e, export_layer md ex n = Some e /\ fst e = []).
  Proof.
    unfold nodes_of, inits_of. intros E nm Hnm. destruct (export_layer md ex n) as [e|] eqn:EE; [|destruct l1; discriminate].
    destruct (layer_node n e EE) as [HN|(nd0 & HN & HO & HI)]; rewrite HN in E; cbn [Datatypes.app] in E.
    - assert (IN : In nd (fst (export_fused md n))) by (rewrite E; apply in_or_app; right; left; reflexivity).
      destruct (fused_node n nd IN) as (HF & _). right. right. right. right. split; [exact HF|]. exists e. split; [reflexivity|exact HN].
    - destruct l1 as [|x l1]; cbn [Datatypes.app] in E; injection E as <- E.
      + destruct (HI nm Hnm) as [H|[H|H]]; [left; exact H|right; left; exact H|]. right. right. left. rewrite map_app. apply in_or_app. left. exact H.
      + assert (IN : In nd (fst (export_fused md n))) by (rewrite E; apply in_or_app; right; left; reflexivity).
        destruct (fused_node n nd IN) as (HF & _ & HX). destruct (HX nm Hnm) as [->|H].
        * right. right. right. left. cbn [map]. left. rewrite HO. unfold output_name. rewrite HF. reflexivity.
        * right. right. left. rewrite map_app. apply in_or_app. right. exact H.
  Qed.

  (** What an exportable list of layers looks like: every layer once, after the
      layers it reads; inputs and constants read nothing; no Linear
      ActivationLayer. *)
  Record well_listed (ls : list nat) : Prop := {
    wl_once : NoDup ls;
    wl_order : topological (md_graph Rnum md) ls;
    wl_plain : inputs_plain ls;
    wl_sources : forall n, In n ls -> input_kind n \/ (exists w, lk Rnum md n = KConstant Rnum w) -> previous_layer (md_graph Rnum md) n = [];
    wl_linear : forall n s, In n ls -> lk Rnum md n = KActivation Rnum s -> lact Rnum (md_layer Rnum md n) <> LinearAct
  }.
  (** A layer that is exported gives a node (or an input). *)
  Lemma layer_gives n i e ls : well_listed ls -> In n ls -> export_input md ex n = Some i -> export_layer md ex n = Some e ->
    (i = [(base n, x_shape (ex n))] /\ input_kind n) \/ exists nd, fst e = [nd] /\ n_output nd = output_name md n.
  Proof.
    intros WL Hn HI HE. pose proof (wl_sources ls WL n Hn) as HS. pose proof (fun s => wl_linear ls WL n s Hn) as HL.
    unfold export_input in HI. unfold input_kind, lk in *.
    assert (NE : fst e <> [] -> exists nd, fst e = [nd] /\ n_output nd = output_name md n).
    { intros NE. destruct (layer_node n e HE) as [H|(nd & H & HO & _)]; [congruence|]. exists nd. split; assumption. }
    destruct (lkind Rnum (md_layer Rnum md n)) eqn:K.
    1, 2: rewrite (HS (or_introl I)) in HI; injection HI as <-; left; split; [reflexivity|exact I].
    1: rewrite HS in HI by (right; exists w; reflexivity); discriminate.
    all: right; apply NE; unfold export_layer in HE; rewrite K in HE; try discriminate; try (injection HE as <-; discriminate).
    - specialize (HL _ eq_refl). destruct (lact Rnum (md_layer Rnum md n)); try (injection HE as <-; discriminate). congruence.
    - destruct k; try discriminate; (destruct cst as [cst|]; [|match type of HE with context [if ?b then _ else _] => destruct b end]); injection HE as <-; discriminate.
    - destruct (x_axes (ex n)); [discriminate|injection HE as <-; discriminate].
    - destruct (x_axes (ex n)); [discriminate|injection HE as <-; discriminate].
    - destruct (x_axes (ex n)); [discriminate|injection HE as <-; discriminate].
  Qed.
  Lemma base_defined n ls : well_listed ls -> In n ls -> (exists i e, export_input md ex n = Some i /\ export_layer md ex n = Some e) ->
    In (base n) (map fst (ins_of n)) \/ In (base n) (map n_output (nodes_of n)).
  Proof.
    intros WL Hn (i & e & EI & EE). unfold ins_of, nodes_of. rewrite EI, EE. destruct (layer_gives n i e ls WL Hn EI EE) as [(-> & _)|(nd & E & HO)].
    - left. left. reflexivity.
    - right. rewrite E, map_app. cbn [map Datatypes.app]. unfold output_name in HO. destruct (fused md n) eqn:F.
      + right. destruct (fused_parts n) as (_ & H). rewrite H. unfold fused_suffixes. rewrite F. cbn [snd map]. left. apply named_nil.
      + left. exact HO.
  Qed.

  Lemma flat_map_cut {A B} (f : A -> list B) ls l1 x l2 : flat_map f ls = l1 ++ x :: l2 ->
    exists a n b c d, ls = a ++ n :: b /\ f n = c ++ x :: d /\ l1 = flat_map f a ++ c.
  Proof.
    revert l1. induction ls as [|n r IH]; intros l1 E; [destruct l1; discriminate|]. cbn [flat_map] in E.
    destruct (le_lt_dec (List.length (f n)) (List.length l1)) as [L|L].
    - assert (S1 : l1 = f n ++ skipn (List.length (f n)) l1).
      { rewrite <- (firstn_skipn (List.length (f n)) l1) at 1. f_equal. apply (f_equal (firstn (List.length (f n)))) in E.
        rewrite firstn_app, Nat.sub_diag, firstn_all, app_nil_r in E. rewrite firstn_app in E. replace (List.length (f n) - List.length l1)%nat with 0%nat in E by lia. rewrite app_nil_r in E. symmetry. exact E. }
      rewrite S1, <- app_assoc in E. apply app_inv_head in E. destruct (IH _ E) as (a & m & b & c & d & -> & Ef & E1).
      exists (n :: a), m, b, c, d. split; [reflexivity|]. split; [exact Ef|]. rewrite S1, E1. cbn [flat_map]. apply app_assoc.
    - assert (S1 : f n = l1 ++ skipn (List.length l1) (f n)).
      { rewrite <- (firstn_skipn (List.length l1) (f n)) at 1. f_equal. apply (f_equal (firstn (List.length l1))) in E.
        rewrite firstn_app in E. replace (List.length l1 - List.length (f n))%nat with 0%nat in E by lia. rewrite app_nil_r, firstn_app, Nat.sub_diag, firstn_all, app_nil_r in E. exact E. }
      exists [], n, r, l1, (tl (skipn (List.length l1) (f n))). split; [reflexivity|]. split; [|reflexivity].
      rewrite S1 in E. rewrite <- app_assoc in E. apply app_inv_head in E. rewrite S1 at 1. f_equal.
      assert (NE : skipn (List.length l1) (f n) <> []).
      { intros Z. apply (f_equal (@List.length B)) in Z. rewrite skipn_length in Z. cbn in Z. lia. }
      destruct (skipn (List.length l1) (f n)); [congruence|]. cbn in E. injection E as -> _. reflexivity.
  Qed.
End Names.
