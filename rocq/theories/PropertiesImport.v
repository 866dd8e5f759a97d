(** * Property C46: what the importers build.
    Vocabulary: GraphSpec.v ([linked], [acyclic], ...), ImportSpec.v
    ([importable], [held_by]). *)
From Coq Require Import String.
From Coq Require Import List Arith Bool Lia.
Import ListNotations.
From Verif Require Import CMem Graph GraphSpec Import ImportSpec ImportProofs ImportOnnxProofs ImportOtherProofs.
Open Scope string_scope.

(** C46, ONNX: whatever the model, if importing does not raise, the identifiers
    are the positions, each use is listed once on both sides, and constant layers
    read nothing. *)
Theorem C46_onnx_linked : forall M g constants, load_onnx M = Some (g, constants) ->
  linked g /\ dnn g = seq 0 (length (dnn g)) /\ constants_are_sources g /\
  (forall c, is_constant g c = true <-> exists name, In (c, name) constants).
Proof.
  intros M g cs E. destruct (load_onnx_linked M g cs E) as [H1 [H2 [H3 H4]]]. auto.
Qed.
Print Assumptions C46_onnx_linked.

(** C46, ONNX: on a well-formed model importing succeeds, and the inputs of every
    layer are, in order, the layers that hold the tensors its node reads. *)
Theorem C46_onnx_inputs : forall M, importable M -> exists g constants,
  load_onnx M = Some (g, constants) /\ linked g /\ acyclic g /\ constants_are_sources g /\
  (forall before ins out after, o_nodes M = before ++ OLayer ins out :: after ->
     Forall2 (held_by M constants) ins (previous_layer g (length (o_inputs M) + layers_in before)))%list /\
  (forall i, i < length (o_inputs M) -> previous_layer g i = []) /\
  (forall c, is_constant g c = true -> length (o_inputs M) + layers_in (o_nodes M) <= c).
Proof. exact load_onnx_correct. Qed.
Print Assumptions C46_onnx_inputs.

(** The layer holding a tensor is unique, so the above determines the inputs. *)
Theorem C46_onnx_layer_is_unique : forall M, importable M -> forall name k1 k2,
  output_of_layer M name k1 -> output_of_layer M name k2 -> k1 = k2.
Proof. intros M H name k1 k2 H1 H2. exact (output_of_layer_unique M H name k1 H1 k2 H2). Qed.
Print Assumptions C46_onnx_layer_is_unique.

(** x -> Conv -> Dropout -> Relu -> Add (with the initialiser b and with the Dropout's value) *)
Definition ex_onnx : onnx_model := mkOnnx ["x"] ["w"; "b"]
  [OConstant "shape"; OLayer ["x"] "conv"; OBypass "conv" "drop"; OLayer ["drop"] "relu"; OLayer ["relu"; "b"; "drop"] "sum"].
Example C46_onnx_example : importable ex_onnx.
Proof.
  constructor.
  - cbn. repeat constructor; cbn; intuition congruence.
  - cbn. intros nd H. repeat (destruct H as [<-|H]; [exact I|]). destruct H.
  - intros before nd after name E Hn. cbn in E.
    repeat (destruct before as [|? before]; cbn in E; [injection E as <- <-; cbn in Hn|injection E as <- E]); try discriminate E.
    + destruct Hn.
    + destruct Hn as [<-|[]]. left. now left.
    + destruct Hn as [<-|[]]. right. left. exists (OLayer ["x"] "conv"). cbn. tauto.
    + destruct Hn as [<-|[]]. right. left. exists (OBypass "conv" "drop"). cbn. tauto.
    + destruct Hn as [<-|[<-|[<-|[]]]].
      * right. left. exists (OLayer ["drop"] "relu"). cbn. tauto.
      * right. right. cbn. split; [auto|]. split; [|exact I]. intuition congruence.
      * right. left. exists (OBypass "conv" "drop"). cbn. tauto.
    + destruct before; discriminate.
  - intros before i o after nd E Hin. cbn in E.
    repeat (destruct before as [|? before]; cbn in E; [try discriminate E; injection E as <- <- <-; cbn in Hin|injection E as <- E]); try discriminate E.
    + repeat (destruct Hin as [<-|Hin]; [cbn; intuition congruence|]). destruct Hin.
    + destruct before; discriminate.
Qed.
Example C46_onnx_example_links :
  option_map (fun r => (map (previous_layer (fst r)) (dnn (fst r)), map (next_layer (fst r)) (dnn (fst r)), snd r)) (load_onnx ex_onnx) =
  Some ([[]; [0]; [1]; [2; 4; 1]; []], [[1]; [2; 3]; [3]; []; [3]], [(4, "b")]).
Proof. reflexivity. Qed.

(** Tile and the Reduce operators record a string instead of a list of names: a
    Reduce after a layer whose output has a name of several characters is not
    importable... *)
Theorem C46_onnx_reduce_refuted :
  load_onnx (mkOnnx ["x"] [] [OLayer ["x"] "conv"; OString "conv" "sum"]) = None.
Proof. reflexivity. Qed.
(** ...or silently reads other tensors: here it must read tensor "12" (layer 3)
    and is linked to layers 1 and 2, which produce tensors "1" and "2". *)
Theorem C46_onnx_reduce_wrong_inputs_refuted : exists M g constants,
  M = mkOnnx ["x"] [] [OLayer ["x"] "1"; OLayer ["1"] "2"; OLayer ["2"] "12"; OString "12" "sum"] /\
  output_of_layer M "12" 3 /\ load_onnx M = Some (g, constants) /\ previous_layer g 4 = [1; 2].
Proof.
  set (M := mkOnnx ["x"] [] [OLayer ["x"] "1"; OLayer ["1"] "2"; OLayer ["2"] "12"; OString "12" "sum"]).
  destruct (load_onnx M) as [[g cs]|] eqn:E; [|vm_compute in E; discriminate].
  exists M, g, cs. split; [reflexivity|]. split; [|split; [exact E|]].
  - change 3 with (length (o_inputs M) + layers_in [OLayer ["x"] "1"; OLayer ["1"] "2"]). apply (from_node M [OLayer ["x"] "1"; OLayer ["1"] "2"] ["2"] "12" [OString "12" "sum"]). reflexivity.
  - vm_compute in E. injection E as <- _. reflexivity.
Qed.
Print Assumptions C46_onnx_reduce_wrong_inputs_refuted.

(** A tensor that goes through an identity-like node (Dropout, Reshape, ...) and
    is also read by another layer: the importer raises KeyError. *)
Theorem C46_onnx_bypass_refuted :
  load_onnx (mkOnnx ["x"] [] [OLayer ["x"] "conv"; OBypass "conv" "drop"; OLayer ["conv"; "drop"] "sum"]) = None.
Proof. reflexivity. Qed.
(** A layer reading the output of a Constant node: KeyError. *)
Theorem C46_onnx_constant_refuted :
  load_onnx (mkOnnx ["x"] [] [OConstant "c"; OLayer ["x"; "c"] "sum"]) = None.
Proof. reflexivity. Qed.
(** Initialisers also listed as graph inputs (as ONNX IR versions before 4 require)
    become input layers. *)
Theorem C46_onnx_initializer_inputs_refuted : exists g,
  load_onnx (mkOnnx ["x"; "b"] ["b"] [OLayer ["x"; "b"] "sum"]) = Some (g, []) /\
  previous_layer g 2 = [0; 1] /\ is_constant g 1 = false /\ ~ single_input g 0.
Proof.
  set (M := mkOnnx ["x"; "b"] ["b"] [OLayer ["x"; "b"] "sum"]).
  destruct (load_onnx M) as [[g cs]|] eqn:E; [|vm_compute in E; discriminate].
  exists g. vm_compute in E. injection E as <- <-. split; [reflexivity|]. split; [reflexivity|]. split; [reflexivity|].
  intros [_ [_ [_ H]]]. destruct (H 1) as [p [Hp _]]; [cbn; auto|lia|reflexivity|]. destruct Hp.
Qed.

(** ** JSON *)
(** Every JSON import stops at its first statement on layers: InputLayer is called
    with four positional arguments and has five required parameters. *)
Theorem C46_json_refuted : forall (A : Type) (zero size shape fmt : A), json_input_layer_call zero size shape fmt = None.
Proof. reflexivity. Qed.
Print Assumptions C46_json_refuted.

(** The rest of the JSON importer (as if the input layer had been created): when
    the declared indices are consistent, identifiers are positions, links are
    symmetric and every layer reads the declared layers. *)
Theorem C46_json_layers_partial : forall jls, json_consistent jls -> exists st,
  load_json_layers jls = Some st /\
  dnn (json_graph st) = seq 0 (1 + length jls + softmaxes jls) /\
  linked (json_graph st) /\ acyclic (json_graph st) /\
  previous_layer (json_graph st) 0 = [] /\
  (forall before jl after, jls = (before ++ jl :: after)%list ->
     let k := 1 + length before + softmaxes before in
     previous_layer (json_graph st) k = prevs_of jl /\
     (softmax_of jl = true -> previous_layer (json_graph st) (S k) = [k])).
Proof.
  intros jls C. destruct (json_steps_ok jls [] _ C json_start_ok) as [st [E H]]. cbn [app] in H.
  exists st. split; [exact E|]. pose proof (json_graph_ok _ _ H) as [L A].
  destruct (json_graph_plain st _ (jo_layers _ _ H) (jo_idx _ _ H) (b_within _ _ (jo_building _ _ H))) as [D [P _]].
  pose proof (jo_objects _ _ H) as N. split; [rewrite D, N; reflexivity|].
  split; [exact L|]. split; [exact A|]. split; [rewrite P by lia; exact (jo_input _ _ H)|].
  intros before jl after Ej k. destruct (jo_prevs _ _ H _ _ _ Ej) as [K1 K2].
  assert (k + (if softmax_of jl then 1 else 0) < j_objects st) as HK.
  { rewrite N, Ej, app_length. unfold softmaxes, k. rewrite filter_app, app_length. cbn [filter].
    destruct (softmax_of jl); cbn [length]; unfold softmaxes; lia. }
  split; [rewrite P by lia; exact K1|]. intros Hs. rewrite Hs in HK. rewrite P by lia. now apply K2.
Qed.
Print Assumptions C46_json_layers_partial.
Example C46_json_example : json_consistent [JEnum [0] false; JConf 2 [1] false; JConf 3 [1; 2] false; JEnum [3] true].
Proof.
  intros before jl after E.
  repeat (destruct before as [|? before]; cbn in E; [injection E as <- <-|injection E as <- E]); try discriminate E;
    try (split; [exact I|repeat constructor]); try (split; [reflexivity|repeat constructor]).
  destruct before; discriminate.
Qed.

(** A BatchNormalization entry is not stored: the layer before it is appended a
    second time, with itself among its inputs, and scheduling fails. *)
Theorem C46_json_batch_normalization_refuted : exists st,
  load_json_layers [JEnum [0] false; JBatchNorm [1]; JEnum [2] false] = Some st /\
  dnn (json_graph st) = [0; 1; 1; 3] /\ previous_layer (json_graph st) 1 = [0; 1] /\ tri_topo (json_graph st) = None.
Proof. eexists. split; [reflexivity|]. split; [reflexivity|]. split; [reflexivity|]. vm_compute. reflexivity. Qed.
(** A skipped entry (Dropout, Reshape, ...) shifts identifiers away from positions. *)
Theorem C46_json_skip_refuted : exists st,
  load_json_layers [JSkip; JEnum [0] false] = Some st /\ dnn (json_graph st) = [0; 2].
Proof. eexists. split; reflexivity. Qed.

(** ** Keras *)
Definition keras_graph (st : keras_state) : graph :=
  mkGraph (k_layers st) (lprev (k_links st)) (lnext (k_links st)) (fun _ => false).

(** Sequential models without Dropout and Reshape: a chain. *)
Theorem C46_keras_sequential : forall start model, start <= 1 ->
  Forall (fun kl => kskip kl = false) (skipn start model) ->
  exists st, load_keras true start model = Some st /\
    let n := 1 + length (skipn start model) + ksoftmaxes (skipn start model) in
    dnn (keras_graph st) = seq 0 n /\ linked (keras_graph st) /\ acyclic (keras_graph st) /\
    previous_layer (keras_graph st) 0 = [] /\
    (forall i, 1 <= i < n -> previous_layer (keras_graph st) i = [i - 1]).
Proof.
  intros start model Hs Hk.
  destruct (keras_sequential_steps start model (skipn start model) [] _ Hs keras_start_ok Hk) as [st [E [O [P Z]]]].
  { cbn. intros i Hi. lia. } { reflexivity. }
  cbn [length app] in *. rewrite Nat.add_0_r in E. exists st. split; [exact E|]. cbv zeta.
  unfold keras_graph. rewrite (ko_layers _ _ O). cbn [dnn previous_layer]. split; [reflexivity|].
  destruct (building_graph _ _ (fun _ => false) (ko_building _ _ O)) as [L A]. split; [exact L|]. split; [exact A|]. auto.
Qed.
Print Assumptions C46_keras_sequential.
Example C46_keras_sequential_example :
  option_map (fun st => (k_layers st, map (lprev (k_links st)) (k_layers st)))
    (load_keras true 1 [mkKeras "in" false false []; mkKeras "d1" false true []; mkKeras "d2" false false []]) =
  Some ([0; 1; 2; 3], [[]; [0]; [1]; [2]]).
Proof. reflexivity. Qed.

(** Functional models: [inp] is the input layer; no Dropout, Reshape, and no softmax
    except in the last layer; every layer reads earlier layers. *)
Theorem C46_keras_functional : forall inp rest,
  NoDup (map kname (inp :: rest)) -> Forall (fun kl => kskip kl = false) rest ->
  (forall before kl after, rest = (before ++ kl :: after)%list -> after <> [] -> ksoftmax kl = false) ->
  (forall before kl after, rest = (before ++ kl :: after)%list ->
     forall name, In name (kinputs kl) -> exists kl', In kl' (inp :: before) /\ kname kl' = name) ->
  exists st, load_keras false 1 (inp :: rest) = Some st /\
    linked (keras_graph st) /\ acyclic (keras_graph st) /\
    dnn (keras_graph st) = seq 0 (1 + length rest + ksoftmaxes rest) /\
    previous_layer (keras_graph st) 0 = [] /\
    (forall before kl after, rest = (before ++ kl :: after)%list ->
       Forall2 (fun name p => exists kl', nth_error (inp :: rest) p = Some kl' /\ kname kl' = name)
         (kinputs kl) (previous_layer (keras_graph st) (1 + length before))) /\
    (forall before kl, rest = (before ++ [kl])%list -> ksoftmax kl = true ->
       previous_layer (keras_graph st) (2 + length before) = [1 + length before]).
Proof.
  intros inp rest D Hk Hs Hi.
  destruct (keras_functional_steps inp rest [] _ D keras_start_ok Hk eq_refl Hs) as [st [E [O [A0 [P Q]]]]].
  { intros b kl a E. apply Forall_forall. intros name Hn. destruct (Hi b kl a E name Hn) as [kl' [Hin <-]].
    destruct (in_split _ _ Hin) as [b' [a' Eb]]. exists b', kl', (a' ++ kl :: a)%list. cbn [app length].
    split; [|split; [reflexivity|]].
    - change (kl' :: a' ++ kl :: a)%list with ((kl' :: a') ++ kl :: a)%list. rewrite app_assoc, <- Eb, E. reflexivity.
    - apply (f_equal (@length _)) in Eb. rewrite app_length in Eb. cbn in Eb. lia. }
  cbn [length app] in *. exists st. split; [exact E|]. unfold keras_graph. rewrite (ko_layers _ _ O). cbn [dnn previous_layer].
  destruct (building_graph _ _ (fun _ => false) (ko_building _ _ O)) as [L A]. split; [exact L|]. split; [exact A|].
  split; [reflexivity|]. split; [rewrite A0 by lia; reflexivity|]. split; [exact P|exact Q].
Qed.
Print Assumptions C46_keras_functional.
Example C46_keras_functional_example :
  option_map (fun st => (k_layers st, map (lprev (k_links st)) (k_layers st)))
    (load_keras false 1 [mkKeras "in" false false []; mkKeras "c1" false false ["in"]; mkKeras "c2" false false ["c1"]; mkKeras "add" false false ["c2"; "c1"]; mkKeras "d" false true ["add"]]) =
  Some ([0; 1; 2; 3; 4; 5], [[]; [0]; [1]; [2; 1]; [3]; [4]]).
Proof. reflexivity. Qed.

(** Sequential model with a Dropout before another layer: IndexError. *)
Theorem C46_keras_dropout_refuted :
  load_keras true 0 [mkKeras "d1" false false []; mkKeras "drop" true false []; mkKeras "d2" false false []] = None.
Proof. reflexivity. Qed.
(** Functional model with a softmax layer s (identifiers 1 before and 2 after the
    softmax) read by the Dense layer d and by the addition a: d is linked to the
    values before the softmax, a to the values before the softmax and the softmax
    instead of s and d. *)
Theorem C46_keras_softmax_refuted : exists st,
  load_keras false 1 [mkKeras "in" false false []; mkKeras "s" false true ["in"]; mkKeras "d" false false ["s"]; mkKeras "a" false false ["s"; "d"]] = Some st /\
  k_layers st = [0; 1; 2; 3; 4] /\ lprev (k_links st) 2 = [1] /\
  lprev (k_links st) 3 = [1] /\ lprev (k_links st) 4 = [1; 2].
Proof. eexists. split; [reflexivity|]. repeat split; reflexivity. Qed.

(** ** PyTorch *)
Definition torch_graph (st : torch_state) : graph :=
  mkGraph (seq 0 (t_count st)) (lprev (t_links st)) (lnext (t_links st)) (fun _ => false).
Theorem C46_pytorch : forall nds st, load_torch nds = Some st ->
  linked (torch_graph st) /\ acyclic (torch_graph st) /\ t_count st = torch_layers_in nds /\
  (forall before name args after, nds = (before ++ TLayer name args :: after)%list ->
     Forall2 (torch_held_by nds) args (previous_layer (torch_graph st) (torch_layers_in before))).
Proof.
  intros nds st E. destruct (torch_steps_ok _ _ _ E torch_start_ok) as [[B V] _].
  destruct (building_graph _ _ (fun _ => false) B) as [L A]. split; [exact L|]. split; [exact A|].
  assert (forall n k, sget [] n = Some k -> torch_held_by nds n k) as Z by discriminate.
  destruct (torch_dic_sound nds nds [] _ st eq_refl E eq_refl Z) as [Hc _]. split; [exact Hc|].
  intros before name args after En. unfold load_torch in E. rewrite En, torch_steps_app in E.
  fold (load_torch before) in E. destruct (load_torch before) as [st0|] eqn:E0; cbn [bind] in E; [|discriminate].
  cbn [torch_steps] in E.
  destruct (torch_step st0 (TLayer name args)) as [st1|] eqn:E1; cbn [bind] in E; [|discriminate].
  destruct (torch_steps_ok _ _ _ E0 torch_start_ok) as [H0 _].
  destruct (torch_step_ok _ _ _ E1 H0) as [H1 [_ [_ H2]]]. destruct (H2 _ _ eq_refl) as [C F].
  destruct (torch_steps_ok _ _ _ E H1) as [_ [K _]]. cbn [torch_graph previous_layer].
  assert (forall n k, sget [] n = Some k -> torch_held_by before n k) as Z0 by discriminate.
  destruct (torch_dic_sound before before [] _ st0 eq_refl E0 eq_refl Z0) as [C0 D0].
  rewrite <- C0, K by lia. apply Forall2_impl with (2 := F). intros a p Hp. rewrite En. apply torch_held_mono. now apply D0.
Qed.
Print Assumptions C46_pytorch.
Theorem C46_pytorch_layer_is_unique : forall nds name k1 k2, NoDup (map torch_name nds) ->
  torch_held_by nds name k1 -> torch_held_by nds name k2 -> k1 = k2.
Proof. intros nds name k1 k2 D H1 H2. exact (torch_held_unique nds name k1 D H1 k2 H2). Qed.
Print Assumptions C46_pytorch_layer_is_unique.
Example C46_pytorch_example :
  option_map (fun st => (t_count st, map (lprev (t_links st)) (seq 0 (t_count st)), map (t_act st) (seq 0 (t_count st))))
    (load_torch [TInput "x"; TLayer "conv" ["x"]; TAlias "bn" "conv"; TActivation 1 "relu" "bn"; TLayer "add" ["relu"; "x"]]) =
  Some (3, [[]; [0]; [1; 0]], [None; Some 1; None]).
Proof. reflexivity. Qed.

(** Every layer object has at most one activation, and the importer stores
    "relu" and "clamp" in the layer of their input.  So when the value before the
    activation has another reader, that reader gets the activated value: here the
    addition must read conv and relu(conv), and reads relu(conv) twice. *)
Theorem C46_pytorch_activation_refuted : exists st,
  load_torch [TInput "x"; TLayer "conv" ["x"]; TActivation 1 "relu" "conv"; TLayer "add" ["conv"; "relu"]] = Some st /\
  lprev (t_links st) 2 = [1; 1] /\ t_act st 1 = Some 1.
Proof. eexists. repeat split; reflexivity. Qed.
(** And a second activation replaces the first: clamp(relu(conv)) becomes clamp(conv). *)
Theorem C46_pytorch_second_activation_refuted : exists st,
  load_torch [TInput "x"; TLayer "conv" ["x"]; TActivation 1 "relu" "conv"; TActivation 2 "clamp" "relu"] = Some st /\
  t_count st = 2 /\ t_act st 1 = Some 2.
Proof. eexists. repeat split; reflexivity. Qed.
