(** * Property C85: every name the generated files use is defined exactly once, and
    make finds every file it needs. *)
From Coq Require Import String Ascii ZArith List Lia Bool.
Import ListNotations.
From Verif Require Import CMem Params PropertiesParams Driver Hooks PropertiesHooks Linking.
Open Scope Z_scope.
Open Scope list_scope.

(** ** Specification: object files that can be linked (C11 6.9: exactly one external
    definition for every identifier used, at most one for the others). *)
Definition linkable (us : list object_file) : Prop :=
  NoDup (flat_map o_defines us) /\ incl (flat_map o_uses us) (flat_map o_defines us).

Section Names.
  Context {V : Type}.
  Implicit Types (l : player V).
  Definition prefixes : list string := ["weights_"; "biases_"; "ppatches_"; "mean_"; "var_"; "scale_"; "constant_"]%string.
  Lemma entry_in {A} (o : option (list V)) (f : list V -> A) s : In s (map f (entry o (fun w => [w]))) -> exists w, o = Some w /\ s = f w.
  Proof. destruct o as [[|a w]|]; cbn; [tauto| |tauto]. intros [<-|[]]. eauto. Qed.
  Lemma names_prefixed l s : In s (map fst (c_definitions l)) \/ In s (map fst (bin_definitions l)) -> exists p, In p prefixes /\ s = (p ++ p_id l)%string.
  Proof.
    assert (EI : forall (o : option (list V)) nm, In s (map fst (entry o (fun w => [(nm, w)]))) -> s = nm) by (intros [[|a w]|] nm HH; cbn in HH; try tauto; destruct HH as [<-|[]]; reflexivity).
    intros [H|H]; [unfold c_definitions in H|unfold bin_definitions in H]; rewrite !map_app in H; repeat (apply in_app_or in H as [H|H]).
    - apply EI in H. exists "weights_"%string. split; [cbn; tauto|exact H].
    - apply EI in H. exists "biases_"%string. split; [cbn; tauto|exact H].
    - apply EI in H. exists "ppatches_"%string. split; [cbn; tauto|exact H].
    - destruct (p_norm l) as [[[mean var] scale]|]; [|destruct H]. destruct mean; [destruct H|]. destruct H as [<-|[<-|[<-|[]]]]; eexists; (split; [|reflexivity]); cbn; tauto.
    - apply EI in H. exists "constant_"%string. split; [cbn; tauto|exact H].
    - exists "weights_"%string. split; [cbn; tauto|]. destruct (p_constant l); [|destruct (p_weights l); [|destruct H]]; destruct H as [<-|[]]; reflexivity.
    - exists "biases_"%string. split; [cbn; tauto|]. destruct (p_biases l); [|destruct H]; destruct H as [<-|[]]; reflexivity.
    - destruct (p_norm l) as [[[mean var] scale]|]; [|destruct H]. destruct H as [<-|[<-|[<-|[]]]]; eexists; (split; [|reflexivity]); cbn; tauto.
  Qed.
  Lemma prefix_injective p q a b : In p prefixes -> In q prefixes -> (p ++ a)%string = (q ++ b)%string -> p = q /\ a = b.
  Proof.
    intros Hp Hq E. cbn in Hp, Hq.
    repeat match goal with H : _ \/ _ |- _ => destruct H as [<-|H] | H : False |- _ => destruct H end; cbn in E; try discriminate; injection E as <-; split; reflexivity.
  Qed.
  Lemma layer_names_distinct l : NoDup (map fst (c_definitions l)) /\ NoDup (map fst (bin_definitions l)).
  Proof.
    unfold c_definitions, bin_definitions, sym.
    split.
    - destruct (weights_of l) as [[|? ?]|]; destruct (p_biases l) as [[|? ?]|]; destruct (p_patches l) as [[|? ?]|]; destruct (p_norm l) as [[[[|? ?] ?] ?]|]; destruct (p_operand l) as [[|? ?]|];
        cbn; repeat (constructor; [intros H; cbn in H; repeat (destruct H as [H|H]; [discriminate|]); destruct H|]); constructor.
    - destruct (p_constant l); destruct (p_weights l); destruct (p_biases l); destruct (p_norm l) as [[[? ?] ?]|];
        cbn; repeat (constructor; [intros H; cbn in H; repeat (destruct H as [H|H]; [discriminate|]); destruct H|]); constructor.
  Qed.
  Lemma NoDup_join {A} (a b : list A) : NoDup a -> NoDup b -> (forall x, In x a -> ~ In x b) -> NoDup (a ++ b).
  Proof.
    intros Ha Hb D. induction Ha as [|x a N _ IH]; [exact Hb|]. cbn. constructor.
    - intros H. apply in_app_or in H as [H|H]; [exact (N H)|exact (D x (or_introl eq_refl) H)].
    - apply IH. intros y Hy. apply D. right. exact Hy.
  Qed.
  (** Layers with distinct identifiers: their arrays have distinct names. *)
  Lemma network_names_distinct (n : list (player V)) : NoDup (map p_id n) ->
    NoDup (map fst (flat_map c_definitions n)) /\ NoDup (map fst (flat_map bin_definitions n)).
  Proof.
    induction n as [|l n IH]; intros H; [split; constructor|]. cbn [map] in H. inversion H as [|? ? N H']; subst.
    destruct (IH H') as [I1 I2]. destruct (layer_names_distinct l) as [L1 L2]. cbn [flat_map]. rewrite !map_app.
    assert (D : forall f : player V -> list (string * list V), (forall l' s, In s (map fst (f l')) -> exists p, In p prefixes /\ s = (p ++ p_id l')%string) ->
      forall s, In s (map fst (f l)) -> ~ In s (map fst (flat_map f n))).
    { intros f Hf s H1 H2. destruct (Hf l s H1) as (p & Hp & E1). apply in_map_iff in H2 as (d & E & H2). apply in_flat_map in H2 as (l' & Hl' & H2).
      destruct (Hf l' s) as (q & Hq & E2); [rewrite <- E; apply in_map; exact H2|]. rewrite E1 in E2. apply prefix_injective in E2 as [_ E2]; [|assumption|assumption].
      apply N. rewrite E2. apply in_map. exact Hl'. }
    split; apply NoDup_join; try assumption; apply D; intros l' s Hs; apply names_prefixed; [left|right]; exact Hs.
  Qed.
  Lemma hooks_declared (n : list (player V)) : Forall one_kind n -> incl (map fst (flat_map hook_params n)) (map fst (flat_map externs n)).
  Proof.
    intros H s Hs. apply in_map_iff in Hs as (d & <- & Hd). apply in_flat_map in Hd as (l & Hl & Hd). rewrite Forall_forall in H. specialize (H l Hl).
    apply in_map. apply in_flat_map. exists l. split; [exact Hl|]. rewrite (hook_trained l H) in Hd. unfold trained in Hd. rewrite map_app in Hd. unfold externs.
    assert (E : forall (o : option (list V)) s, map (fun d : string * list V => (fst d, zlen (snd d))) (entry o (fun w => [(s, w)])) = entry o (fun w => [(s, zlen w)])) by (intros [[|a w]|] s; reflexivity).
    rewrite !E in Hd. apply in_app_or in Hd as [Hd|Hd]; [apply in_or_app; left; exact Hd|apply in_or_app; right; apply in_or_app; left; exact Hd].
  Qed.
End Names.

(** What the form of the parameters asks: sizes of BatchNormalization arrays agree, and,
    for parameters.dat, no constant operand and no indirect convolution (C53). *)
Definition parameters_present {V} (bin : bool) (n : list (player V)) : Prop :=
  Forall (fun l => norm_consistent l /\ (bin = true -> p_operand l = None /\ p_patches l = None)) n.
Lemma declared_defined {V} (o : options) (n : list (player V)) : parameters_present (o_bin o) n ->
  incl (map fst (flat_map externs n)) (map fst (if o_bin o then flat_map bin_definitions n else flat_map c_definitions n)).
Proof.
  intros H s Hs. destruct (o_bin o).
  - apply in_map_iff in Hs as ([t k] & <- & Hs). cbn [fst]. destruct (C53_binary_file_partial V n) with (s := t) (n := k) as (v & Hv); [|exact Hs|].
    + eapply Forall_impl; [|exact H]. cbn. intros l (A & B). split; [exact A|apply B; reflexivity].
    + apply (in_map fst) in Hv. exact Hv.
  - rewrite <- (C53_c_file_matches_header V n) in Hs by (eapply Forall_impl; [|exact H]; intros l (A & _); exact A). rewrite map_map in Hs. exact Hs.
Qed.

Section Fixed.
  Open Scope string_scope.
  Definition fixed_names : list string :=
    ["main"; "inference"; "Context"; "input_min"; "input_max"; "input_mean"; "input_range"; "output_mean"; "output_range"; "zero"; "batch_loop"; "copy_weights"; "save_weights"; "nn_test_inputs"].
  Lemma fixed_not_prefixed s p i : In s fixed_names -> In p prefixes -> s <> p ++ i.
  Proof. intros Hs Hp E. cbn in Hs, Hp. repeat match goal with H : _ \/ _ |- _ => destruct H as [<-|H] | H : False |- _ => destruct H end; discriminate. Qed.
End Fixed.
Lemma parameters_names {V} (o : options) (n : list (player V)) : NoDup (map p_id n) ->
  let ps := map fst (if o_bin o then flat_map bin_definitions n else flat_map c_definitions n) in
  NoDup ps /\ forall s, In s fixed_names -> ~ In s ps.
Proof.
  intros H ps. destruct (network_names_distinct n H) as [N1 N2]. split; [unfold ps; destruct (o_bin o); assumption|].
  intros s Hs Hi. assert (E : exists p i, In p prefixes /\ s = (p ++ i)%string).
  { unfold ps in Hi. destruct (o_bin o); apply in_map_iff in Hi as (d & <- & Hi); apply in_flat_map in Hi as (l & _ & Hi);
      destruct (names_prefixed l (fst d)) as (p & Hp & E); [right; apply in_map; exact Hi| |left; apply in_map; exact Hi|]; exists p, (p_id l); auto. }
  destruct E as (p & i & Hp & E). exact (fixed_not_prefixed s p i Hs Hp E).
Qed.
Ltac distinct := repeat (constructor; [intros HH; cbn in HH; repeat (destruct HH as [HH|HH]; [discriminate|]); destruct HH|]); try constructor.

(** ** The program links, for every network whose layers have distinct identifiers,
    whatever the normalisation and the form of the parameters. *)
Theorem C85_program_links : forall (V : Type) (o : options) normalize indirect (n : list (player V)),
  o_ext o = false -> NoDup (map p_id n) -> Forall one_kind n -> parameters_present (o_bin o) n ->
  linkable (program o normalize indirect n).
Proof.
  intros V o nz ind n HE ND K P. pose proof (parameters_names o n ND) as [N1 N2]. pose proof (declared_defined o n P) as D. pose proof (hooks_declared n K) as HK.
  unfold program, linkable, header_inputs in *. unfold main_o, inference_o, global_vars_o, parameters_o, train_hook_o, test_dataset_o, header_inputs. rewrite HE.
  cbn [app flat_map o_defines o_uses]. set (ps := map fst (if o_bin o then flat_map bin_definitions n else flat_map c_definitions n)) in *.
  split.
  - apply (@NoDup_incl_NoDup _ ((["main"; "inference"; "Context"]%string ++ normalization_constants nz ++ (if ind then ["zero"%string] else []) ++ ["batch_loop"; "copy_weights"; "save_weights"; "nn_test_inputs"]%string) ++ ps)).
    + apply NoDup_join; [|exact N1|].
      * destruct nz, ind; cbn; distinct.
      * intros s Hs. apply N2. destruct nz, ind; cbn in Hs |- *; tauto.
    + destruct nz, ind; cbn; rewrite ?app_length; cbn; rewrite ?app_length; cbn; lia.
    + intros s Hs. destruct nz, ind; cbn in Hs |- *; rewrite ?in_app_iff in *; cbn in *; rewrite ?in_app_iff in *; cbn in *; tauto.
  - intros s Hs.
    assert (Q : In s ps \/ In s fixed_names /\ (In s (["main"; "inference"; "Context"]%string ++ normalization_constants nz ++ ["nn_test_inputs"]%string))).
    { repeat (cbn [app In] in Hs; rewrite ?in_app_iff in Hs).
      destruct nz; cbn in *; rewrite ?in_app_iff in *; cbn in *; rewrite ?app_nil_r in *; repeat match goal with H : _ \/ _ |- _ => destruct H as [H|H] end;
        try (subst s; right; split; tauto); try (left; apply D; assumption); try (left; apply D; apply HK; assumption); try contradiction. }
    destruct Q as [Q|[_ Q]].
    + destruct nz, ind; cbn; rewrite ?in_app_iff; cbn; rewrite ?in_app_iff; tauto.
    + destruct nz, ind; cbn in Q |- *; rewrite ?in_app_iff; cbn; rewrite ?in_app_iff; cbn; tauto.
Qed.
Print Assumptions C85_program_links.
(** The shared library too, with or without external inputs. *)
Theorem C85_library_links : forall (V : Type) (o : options) normalize indirect (n : list (player V)),
  NoDup (map p_id n) -> Forall one_kind n -> parameters_present (o_bin o) n ->
  linkable (library o normalize indirect n).
Proof.
  intros V o nz ind n ND K P. pose proof (parameters_names o n ND) as [N1 N2]. pose proof (declared_defined o n P) as D. pose proof (hooks_declared n K) as HK.
  unfold library, linkable. unfold inference_o, global_vars_o, parameters_o, train_hook_o, header_inputs.
  cbn [app flat_map o_defines o_uses]. set (ps := map fst (if o_bin o then flat_map bin_definitions n else flat_map c_definitions n)) in *.
  split.
  - apply (@NoDup_incl_NoDup _ ((["inference"; "Context"]%string ++ normalization_constants nz ++ (if ind then ["zero"%string] else []) ++ ["batch_loop"; "copy_weights"; "save_weights"]%string ++ (if o_ext o then ["nn_test_inputs"%string] else [])) ++ ps)).
    + apply NoDup_join; [|exact N1|].
      * destruct nz, ind, (o_ext o); cbn; distinct.
      * intros s Hs. apply N2. destruct nz, ind, (o_ext o); cbn in Hs |- *; tauto.
    + destruct nz, ind, (o_ext o); cbn; rewrite ?app_length; cbn; rewrite ?app_length; cbn; lia.
    + intros s Hs. destruct nz, ind, (o_ext o); cbn in Hs |- *; rewrite ?in_app_iff in *; cbn in *; rewrite ?in_app_iff in *; cbn in *; tauto.
  - intros s Hs.
    assert (Q : In s ps \/ In s fixed_names /\ (In s (["inference"; "Context"]%string ++ normalization_constants nz))).
    { repeat (cbn [app In] in Hs; rewrite ?in_app_iff in Hs).
      destruct nz; cbn in *; rewrite ?in_app_iff in *; cbn in *; rewrite ?app_nil_r in *; repeat match goal with H : _ \/ _ |- _ => destruct H as [H|H] end;
        try (subst s; right; split; tauto); try (left; apply D; assumption); try (left; apply D; apply HK; assumption); try contradiction. }
    destruct Q as [Q|[_ Q]].
    + destruct nz, ind; cbn; rewrite ?in_app_iff; cbn; rewrite ?in_app_iff; tauto.
    + destruct nz, ind; cbn in Q |- *; rewrite ?in_app_iff; cbn; rewrite ?in_app_iff; cbn; tauto.
Qed.
Print Assumptions C85_library_links.

(** With external inputs the program does not link: test_dataset.h defines nn_test_inputs
    in main.c and in train_hook.c. *)
Theorem C85_external_input_refuted : forall (V : Type) (o : options) normalize indirect (n : list (player V)),
  o_ext o = true -> ~ linkable (program o normalize indirect n).
Proof.
  intros V o nz ind n HE [H _]. unfold program, main_o, train_hook_o, header_inputs in H. rewrite HE in H. cbn [app flat_map o_defines] in H.
  inversion H as [|? ? _ H1]; subst. inversion H1 as [|? ? N _]; subst. apply N.
  unfold inference_o, global_vars_o, parameters_o. cbn. rewrite ?in_app_iff. right. right. right. rewrite ?in_app_iff. cbn. tauto.
Qed.
Print Assumptions C85_external_input_refuted.
(** Nor does a program of an addition of a constant, with parameters.dat. *)
Theorem C85_binary_refuted : exists (o : options) (n : list (player Z)),
  o_ext o = false /\ o_bin o = true /\ NoDup (map p_id n) /\ Forall one_kind n /\ ~ linkable (program o false false n).
Proof.
  exists (mkOptions true false true), [mkPlayer "Add_01" None None None None None None (Some [5])].
  split; [reflexivity|]. split; [reflexivity|]. split; [repeat constructor; intros []|]. split; [repeat constructor|].
  intros [_ H]. specialize (H "constant_Add_01"%string). cbn in H. destruct H as [H|H]; [tauto|discriminate|].
  repeat (destruct H as [H|H]; [discriminate|]). exact H.
Qed.
Print Assumptions C85_binary_refuted.

(** ** make finds what it needs: whatever the options, and whatever files are added by
    custom functions, replace or disable the categories other than Inference. *)
Lemma to_object_cases s : to_object s = s \/ exists b, s = (b ++ ".c")%string /\ to_object s = (b ++ ".o")%string.
Proof.
  induction s as [|c r IH]; [left; reflexivity|]. cbn [to_object]. destruct (String.eqb_spec (String c r) ".c") as [->|NE].
  - right. exists ""%string. split; reflexivity.
  - destruct IH as [->|(b & E & F)]; [left; reflexivity|right]. exists (String c b). rewrite F, E. split; reflexivity.
Qed.
Lemma append_c b1 b2 : (b1 ++ ".c")%string = (b2 ++ ".c")%string -> b1 = b2.
Proof.
  revert b2. induction b1 as [|c b1 IH]; intros [|d b2] E; [reflexivity| | |].
  - destruct b2 as [|e [|g b2]]; cbn in E; discriminate.
  - destruct b1 as [|e [|g b1]]; cbn in E; discriminate.
  - cbn in E. injection E as -> E. rewrite (IH b2 E). reflexivity.
Qed.
Lemma custom_selected o cs f : In f (selected_files o cs) -> In f (written_files o cs) \/ (o_bin o = true /\ ((f = "parameters.c"%string /\ replaced cs "Inference" = false) \/ (f = "test_dataset.c"%string /\ o_ext o = false /\ replaced cs "TestValues" = false))).
Proof.
  unfold selected_files, written_files. rewrite !in_app_iff. intros H.
  repeat match goal with H : _ \/ _ |- _ => destruct H as [H|H] end; try tauto.
  - destruct (replaced cs "Inference") eqn:R; [destruct H|]. cbn in H. destruct (o_bin o); cbn; intuition (subst; auto).
  - destruct (o_ext o) eqn:R; [destruct H|]. cbn [orb] in *. destruct (replaced cs "TestValues") eqn:R'; [destruct H|]. cbn in H. destruct (o_bin o); cbn; intuition (subst; auto 10).
Qed.
Theorem C85_makefile : forall (o : options) (cs : customs), replaced cs "Inference" = false ->
  (* a custom function does not write one of the two files that binary mode does not expect *)
  (o_bin o = true -> ~ In "parameters.c"%string (custom_names cs) /\ ~ In "test_dataset.c"%string (custom_names cs)) ->
  forall f, In f (prerequisites (selected_files o cs)) -> made (o_bin o) (written_files o cs) f.
Proof.
  intros o cs R NC f Hf.
  assert (PR : forall g, In g (written_files o cs) -> made (o_bin o) (written_files o cs) g) by (intros; apply made_present; assumption).
  assert (INF : forall g, In g ["inference.c"; "inference.h"; "global_vars.c"; if o_bin o then "parameters.dat" else "parameters.c"; "train_hook.c"]%string -> In g (written_files o cs)).
  { intros g Hg. unfold written_files. rewrite R. rewrite !in_app_iff. right. left. exact Hg. }
  assert (PO : made (o_bin o) (written_files o cs) "parameters.o").
  { destruct (o_bin o) eqn:B; [apply made_parameters; [reflexivity|]; apply made_present; apply INF; cbn; tauto|].
    apply (made_compiled false _ "parameters"); [discriminate|]. apply made_present. apply INF. cbn. tauto. }
  unfold prerequisites in Hf. apply in_app_or in Hf as [Hf|Hf]; [|apply in_app_or in Hf as [Hf|Hf]].
  - apply in_map_iff in Hf as (s & <- & Hs). unfold source_files in Hs. apply filter_In in Hs as [Hs _].
    destruct (custom_selected o cs s Hs) as [W|(B & [(-> & _)|(-> & X & TV)])].
    + destruct (to_object_cases s) as [->|(b & E & ->)]; [apply PR; exact W|]. apply made_compiled; [|apply PR; rewrite <- E; exact W].
      intros B. assert (NW : ~ In "parameters.c"%string (written_files o cs) /\ ~ In "test_dataset.c"%string (written_files o cs)).
      { destruct (NC B) as [N1 N2]. unfold written_files. rewrite B, R. split; intros H; rewrite !in_app_iff in H;
          repeat match goal with H : _ \/ _ |- _ => destruct H as [H|H] end;
          repeat match goal with H : In _ (if ?c then _ else _) |- _ => destruct c end; cbn in *; intuition discriminate. }
      split; intros ->; cbn in E; rewrite E in W; tauto.
    + exact PO.
    + apply made_dataset; [exact B|]. apply made_present. unfold written_files. rewrite X, TV, B. rewrite !in_app_iff. cbn. tauto.
  - unfold header_files in Hf. apply filter_In in Hf as [Hf NCf]. destruct (custom_selected o cs f Hf) as [W|(_ & [(-> & _)|(-> & _)])]; [apply PR; exact W|discriminate|discriminate].
  - destruct Hf as [<-|[<-|[<-|[<-|[]]]]]; [apply PR, INF; cbn; tauto|exact PO|apply PR, INF; cbn; tauto|apply PR, INF; cbn; tauto].
Qed.
Print Assumptions C85_makefile.
Lemma o_not_c : forall b a, (b ++ ".o")%string <> (a ++ ".c")%string.
Proof.
  induction b as [|c b IH]; intros [|d a] E; [discriminate| | |].
  - destruct a as [|e [|g a]]; cbn in E; discriminate.
  - destruct b as [|e [|g b]]; cbn in E; discriminate.
  - cbn in E. injection E as _ E. exact (IH a E).
Qed.
Lemma made_c bin present f a : made bin present f -> f = (a ++ ".c")%string -> In f present.
Proof.
  intros H. destruct H as [f H| | |b _ _]; intros E; [exact H|exfalso|exfalso|exfalso].
  - exact (o_not_c "test_dataset" a E).
  - exact (o_not_c "parameters" a E).
  - exact (o_not_c b a E).
Qed.
(** When the inference files are replaced by others, the rule of the shared library, which
    all depends on, still asks for the default ones. *)
Theorem C85_makefile_refuted : exists (o : options) (cs : customs), cs = [("Inference", ("net.c", true))]%string /\
  In "inference.c"%string (prerequisites (selected_files o cs)) /\ ~ made (o_bin o) (written_files o cs) "inference.c".
Proof.
  exists (mkOptions false false true), [("Inference", ("net.c", true))]%string. split; [reflexivity|]. split; [cbn; tauto|].
  intros H. pose proof (made_c _ _ _ "inference" H eq_refl) as P. cbn in P. repeat (destruct P as [P|P]; [discriminate|]). exact P.
Qed.
Print Assumptions C85_makefile_refuted.
(** Non-vacuity: a normalised network of two layers, and a custom file. *)
Example C85_example : linkable (program (mkOptions true false true) true true (hook_net 1 2 3)) /\
  made false (written_files (mkOptions false false true) [("Extra", ("extra.c", true))]%string) "extra.o".
Proof.
  split.
  - apply C85_program_links; [reflexivity| | |].
    + repeat constructor; cbn; intros H; repeat (destruct H as [H|H]; [discriminate|]); exact H.
    + constructor; [right; reflexivity|constructor; [left; reflexivity|constructor]].
    + repeat constructor.
  - apply (C85_makefile (mkOptions false false true) [("Extra", ("extra.c", true))]%string); [reflexivity|discriminate|cbn; tauto].
Qed.
