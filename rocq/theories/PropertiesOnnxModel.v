(** * C72: an imported ONNX model computes what ONNX specifies.
    OnnxModelSpec.v says what ONNX computes ([runs m inputs env]: [env] are the
    tensors of a run of the model [m] on [inputs]); OnnxModel.v models the
    importer, from the nodes to the layers, their links and their schedule.
    Conditions, all of them in OnnxModelSpec.v:
    - [well_formed m input output]: one input, one output, every name is defined
      once and before it is read, every tensor but the output is read.
    - [annotated m env]: the file announces the dimensions of the computed
      tensors (as shape inference does), with one to four dimensions.
    - [all_covered m]: every node is one of those of [covered]: Relu, Tanh,
      Sigmoid, Exp, Log, LeakyRelu, Softmax, Conv, MaxPool, AveragePool,
      GlobalAveragePool, BatchNormalization, Add, Sub, Mul, Div, Max, Min,
      Concat, Transpose, Gather, GatherElements, Gemm, MatMul, Pad, Tile, the five
      reductions (Sum, Mean, Prod, Max, Min), Dropout, Unsqueeze, Reshape and
      Flatten, with the options listed there.
    - [exclusive m]: nothing else reads the operand of a node that only changes
      the shape (C46_onnx_bypass_refuted shows why). *)
From Coq Require Import String.
From Coq Require Import ZArith List Lia Bool Reals Lra QArith Permutation.
Import ListNotations.
From Verif Require Import CMem Tensor Num RealInst Reduce Graph GraphSpec Import ImportSpec LayerKinds Net NetProofs PropertiesNet.
From Verif Require Import OnnxSpec OnnxWindowSpec OnnxLinearSpec OnnxMiscSpec ExportSpec OnnxModelSpec OnnxModel OnnxModelOps OnnxModelNode OnnxModelNet OnnxModelNames.
Open Scope string_scope.
Open Scope list_scope.
Open Scope Z_scope.

(** The import succeeds, and the documented functions of the layers, applied in
    the order of the links, give the output that ONNX specifies. *)
Theorem C72_import_keeps_the_function_partial : forall (impl : conv_impl) (ninf : R) (q : Q -> R) (m : source) (input output : string) inputs env ods y,
  well_formed m input output -> all_covered m -> exclusive m -> runs m inputs env -> annotated m env -> env output = Some (TFloat ods y) ->
  exists md s, load_model impl m = Some (md, s) /\ tri_topo (md_graph Rnum md) = Some s /\
  forall val, evaluates (documented_net Rnum ninf q md s) (inputs input) val -> md_post Rnum md s (val (last (order s) O)) = y.
Proof.
  intros impl ninf q m input output inputs env ods y WF CV EX RU AN EO. destruct (loaded m input output impl inputs env WF RU AN CV EX) as (nds & g & cs & s & HN & EL & LM & ES & HO & HI).
  eexists _, s. split; [exact LM|]. split; [exact ES|]. intros val EV. rewrite (output_value m input output impl inputs env WF RU AN EX nds HN g cs EL ninf q s val HO HI EV). unfold data. rewrite EO. reflexivity.
Qed.
Print Assumptions C72_import_keeps_the_function_partial.

(** The generated C program returns that output. *)
Theorem C72_generated_program_partial : forall (ninf : R) (q : Q -> R) (m : source) (input output : string) inputs env ods y,
  well_formed m input output -> all_covered m -> exclusive m -> runs m inputs env -> annotated m env -> env output = Some (TFloat ods y) ->
  reads_once m ->
  exists md s, load_model SixLoops m = Some (md, s) /\ tri_topo (md_graph Rnum md) = Some s /\
  forall (mem0 : mem R), declared (python_net Rnum ninf q md s) s mem0 -> mem0 NnIn = inputs input ->
  exists mem1, inference (python_net Rnum ninf q md s) s mem0 = Some mem1 /\ mem1 NnOut = y /\
    (python_supported Rnum md -> compute_inference (python_net Rnum ninf q md s) s (mem0 NnIn) = Some (mem1 NnOut)).
Proof.
  intros ninf q m input output inputs env ods y WF CV EX RU AN EO RO. destruct (loaded m input output SixLoops inputs env WF RU AN CV EX) as (nds & g & cs & s & HN & EL & LM & ES & HO & HI).
  eexists _, s. split; [exact LM|]. split; [exact ES|]. intros mem0 D EIN.
  pose proof (model_supported m input output SixLoops inputs env WF RU AN EX nds HN g cs EL eq_refl RO) as SP.
  destruct (C08_inference_computes_the_network Rnum ninf q _ O SP) as (s' & ES' & HC). cbn [md_graph] in ES'. rewrite ES in ES'. injection ES' as <-.
  destruct (HC mem0 D) as (val & mem1 & EV & EI & E1 & EP). exists mem1. split; [exact EI|]. split; [|intros PS; rewrite (EP PS); reflexivity].
  rewrite E1. rewrite EIN in EV. rewrite (output_value m input output SixLoops inputs env WF RU AN EX nds HN g cs EL ninf q s val HO HI EV). unfold data. rewrite EO. reflexivity.
Qed.
Print Assumptions C72_generated_program_partial.

(** ** Example: Conv without a bias and with SAME_UPPER padding, Relu, Dropout,
    Add with an initialiser, Flatten and Gemm, on images of any batch size. *)
Definition ex72_w : list R := [1; 2; 3; 4]%R.
Definition ex72 : source := mkSource 13 [("x", [0; 1; 2; 2])]
  [("w", TFloat [1; 1; 2; 2] ex72_w); ("b", TFloat [2] [5; 6]%R); ("w2", TFloat [4; 1] [1; 1; 1; 1]%R); ("c2", TFloat [1] [7]%R)]
  [mkONode "Conv" [("kernel_shape", AInts [2; 2]); ("auto_pad", AStr "SAME_UPPER")] ["x"; "w"] "c";
   mkONode "Relu" [] ["c"] "r";
   mkONode "Dropout" [] ["r"] "d";
   mkONode "Add" [] ["d"; "b"] "s";
   mkONode "Flatten" [("axis", AInt 1)] ["s"] "f";
   mkONode "Gemm" [] ["f"; "w2"; "c2"] "y"]
  [("c", [0; 1; 2; 2]); ("r", [0; 1; 2; 2]); ("d", [0; 1; 2; 2]); ("s", [0; 1; 2; 2]); ("f", [0; 4])]
  [("y", [0; 1])].
Definition ex72_c (x : list R) : list R := tab3 1 2 2 (fun m i j => (sum3 Rnum 1 2 2 (fun p h k =>
   (pixel 0%R 2 2 x p (i + h) (j + k) * nthZ 0%R ex72_w (h * 2 + k))%R) + 0)%R).
Definition ex72_r (x : list R) : list R := map (fun v => Rmax v 0) (ex72_c x).
Definition ex72_s (x : list R) : list R :=
  [nthZ 0%R (ex72_r x) 0 + 5; nthZ 0%R (ex72_r x) 1 + 6; nthZ 0%R (ex72_r x) 2 + 5; nthZ 0%R (ex72_r x) 3 + 6]%R.
Definition ex72_y (x : list R) : list R :=
  [1 * (0 + nthZ 0 (ex72_s x) 0 * 1 + nthZ 0 (ex72_s x) 1 * 1 + nthZ 0 (ex72_s x) 2 * 1 + nthZ 0 (ex72_s x) 3 * 1) + 1 * 7]%R.
Definition ex72_env (x : list R) (nm : string) : option tensor :=
  match find (fun e => String.eqb nm (fst e)) (
    [("x", TFloat [1; 1; 2; 2] x); ("c", TFloat [1; 1; 2; 2] (ex72_c x)); ("r", TFloat [1; 1; 2; 2] (ex72_r x)); ("d", TFloat [1; 1; 2; 2] (ex72_r x));
     ("s", TFloat [1; 1; 2; 2] (ex72_s x)); ("f", TFloat [1; 4] (ex72_s x)); ("y", TFloat [1; 1] (ex72_y x))] ++ s_init ex72)
  with Some e => Some (snd e) | None => None end.
Ltac each H := cbn in H; repeat (destruct H as [<-|H]; [|]); [..|destruct H].
Lemma inside4 a b c d idx : inside [a; b; c; d] idx -> exists i j k l, idx = [i; j; k; l] /\ 0 <= i < a /\ 0 <= j < b /\ 0 <= k < c /\ 0 <= l < d.
Proof. intros H. destruct idx as [|i [|j [|k [|l [|? ?]]]]]; try (exfalso; repeat match goal with G : Forall2 _ _ _ |- _ => inversion G; clear G; subst | G : inside _ _ |- _ => unfold inside in G end; fail).
  exists i, j, k, l. split; [reflexivity|]. inversion H as [|? ? ? ? K1 T1]; subst. inversion T1 as [|? ? ? ? K2 T2]; subst. inversion T2 as [|? ? ? ? K3 T3]; subst. inversion T3 as [|? ? ? ? K4 T4]; subst. auto. Qed.
Lemma ex72_runs x : zlen x = 4 -> runs ex72 (fun _ => x) (ex72_env x).
Proof.
  intros HX. split; [reflexivity|]. split; [|split; [|split]].
  - intros nm ds [E|[]]. injection E as <- <-. reflexivity.
  - intros nm t H. cbn in H. repeat (destruct H as [E|H]; [injection E as <- <-; reflexivity|]). destruct H.
  - intros nd Hn. each Hn; (eexists; split; [reflexivity|]); cbn [n_op n_attrs n_inputs map].
    + apply (o_conv _ 1 1 2 2 1 2 2 1 1 1 1 (0, 1) (0, 1) ex72_w [0%R] [] x (ex72_c x)); [reflexivity| |apply (bias_omitted 1); left; reflexivity|].
      * split; [reflexivity|]. split; [reflexivity|]. split; [reflexivity|]. exists AutoUpper, 0, 0, 0, 0. repeat split.
      * split; [reflexivity|]. intros m i j Hm Hi Hj. change (onnx_length 2 (0, 1) 2 1 1) with 2 in *. unfold ex72_c. rewrite at3_tab3 by assumption. assert (m = 0) by lia. subst m. cbn [fst]. refine (f_equal (fun v => (v + 0)%R) _).
        change (1 / 1) with 1. unfold sum3. apply (f_equal (fun l => fold_left (nadd Rnum) l (n0 Rnum))). apply tab3_ext; [lia|lia|lia|]. intros p h k Hp Hh Hk. assert (p = 0) by lia. subst p. change (0 / 1 * 1 + 0) with 0. replace (i * 1 + h * 1 - 0) with (i + h) by lia. replace (j * 1 + k * 1 - 0) with (j + k) by lia. replace (((0 * 1 + 0) * 2 + h) * 2 + k) with (h * 2 + k) by lia. reflexivity.
    + apply o_basic; [cbn; intuition discriminate|]. apply (h_unary "Relu" [] ORelu). reflexivity.
    + apply (o_dropout _ _ _ []). cbn. lia.
    + apply o_basic; [cbn; intuition discriminate|]. apply (h_binary "Add" [] Rplus); [reflexivity| |].
      * split; [intros ds [<-|[<-|[]]]; cbn; lia|]. split; [exists [1; 1; 2; 2]; split; [left; reflexivity|reflexivity]|]. intros k Hk.
        cbn in Hk. split; [intros ds [<-|[<-|[]]]; do 4 (destruct k as [|k]; [cbn; lia|]); lia|]. exists [1; 1; 2; 2]. split; [left; reflexivity|]. do 4 (destruct k as [|k]; [reflexivity|]); lia.
      * split; [reflexivity|]. intros idx Hi. apply inside4 in Hi. destruct Hi as (i & j & k & l & -> & Hi & Hj & Hk & Hl). assert (i = 0) by lia. assert (j = 0) by lia. subst i j.
        assert (K : k = 0 \/ k = 1) by lia. assert (L : l = 0 \/ l = 1) by lia. destruct K as [->| -> ], L as [->| -> ]; reflexivity.
    + apply o_basic; [cbn; intuition discriminate|]. apply (h_flatten [("axis", AInt 1)] [1; 1; 2; 2] 1 (ex72_s x) (ex72_s x)); [reflexivity|cbn; lia|].
      split; [reflexivity|]. intros idx Hi. apply inside4 in Hi. destruct Hi as (i & j & k & l & -> & Hi & Hj & Hk & Hl). unfold el. cbn. f_equal; lia.
    + apply o_basic; [cbn; intuition discriminate|]. apply (h_gemm [] 0 0 1%R 1%R 1 1 4 [1] (ex72_s x) [1; 1; 1; 1]%R [7]%R (ex72_y x)); try reflexivity.
      * split; [intros ds [<-|[<-|[]]]; cbn; lia|]. split; [exists [1; 1]; split; [right; left; reflexivity|reflexivity]|]. intros k Hk. cbn in Hk.
        split; [intros ds [<-|[<-|[]]]; do 2 (destruct k as [|k]; [cbn; lia|]); lia|]. exists [1; 1]. split; [right; left; reflexivity|]. do 2 (destruct k as [|k]; [reflexivity|]); lia.
      * split; [reflexivity|]. intros i j Hi Hj. assert (i = 0) by lia. assert (j = 0) by lia. subst i j. reflexivity.
  - intros nm t H. unfold ex72_env in H. cbn [find fst s_init ex72 Datatypes.app] in H. 
    repeat (match type of H with context [if String.eqb nm ?k then _ else _] => destruct (String.eqb nm k) end; [injection H as <-; cbn [snd sized_tensor]; try (split; [repeat constructor; lia|]); first [exact HX|reflexivity]|]). discriminate.
Qed.
Lemma ex72_produced nm : In nm ["x"; "c"; "r"; "d"; "s"; "f"; "y"] <-> produced ex72 nm.
Proof. unfold produced. cbn. tauto. Qed.
Example C72_example : forall x, zlen x = 4 ->
  well_formed ex72 "x" "y" /\ all_covered ex72 /\ exclusive ex72 /\ runs ex72 (fun _ => x) (ex72_env x) /\ annotated ex72 (ex72_env x) /\
  ex72_env x "y" = Some (TFloat [1; 1] (ex72_y x)) /\ reads_once ex72.
Proof.
  intros x HX. assert (P : forall nm, In nm ["x"; "c"; "r"; "d"; "s"; "f"; "y"] -> produced ex72 nm) by (intros nm; apply ex72_produced).
  assert (AT : forall k n, nth_error (s_nodes ex72) k = Some n -> In n (s_nodes ex72)) by (intros k n H; eapply nth_error_In; exact H).
  split; [|split; [|split; [|split; [|split; [|split]]]]].
  - constructor.
    + reflexivity.
    + cbn. tauto.
    + cbn. repeat (constructor; [cbn; intuition discriminate|]). constructor.
    + cbn. intuition discriminate.
    + intros before nd after E nm H. do 6 (destruct before as [|? before]; [injection E as <- _; cbn in H; cbn; intuition auto|injection E as <- E]). destruct before; discriminate.
    + intros nm H NE. cbn in H. assert (X : exists k n, nth_error (s_nodes ex72) k = Some n /\ In nm (n_inputs n)).
      { destruct H as [->|[<-|[<-|[<-|[<-|[<-|[<-|[]]]]]]]]; [exists 0%nat|exists 1%nat|exists 2%nat|exists 3%nat|exists 4%nat|exists 5%nat|congruence]; (eexists; split; [reflexivity|cbn; auto]). }
      destruct X as (k & n & HN & HI). exists n. split; [eapply nth_error_In; exact HN|exact HI].
  - intros nd Hn. each Hn; cbn [n_inputs]; (split; [|eexists; split; [left; reflexivity|apply P; cbn; tauto]]).
    + apply (v_conv ex72 _ 2 2 1 1 AutoUpper); try reflexivity; try lia; [apply P; cbn; tauto|cbn; lia|]. intros nm [<-|[]]. eexists. left. reflexivity.
    + apply v_unary; [cbn; tauto|apply P; cbn; tauto].
    + apply (v_reshape ex72 "Dropout" [] "r" []); [cbn; tauto|apply P; cbn; tauto|intros nm []].
    + apply v_add. constructor; [left; apply P; cbn; tauto|]. constructor; [|constructor]. right. exists [2], [5; 6]%R. split; [right; left; reflexivity|]. split; [repeat constructor|]. split; [cbn; lia|cbn; lia].
    + apply (v_reshape ex72 "Flatten" _ "s" []); [cbn; tauto|apply P; cbn; tauto|intros nm []].
    + apply (v_gemm ex72 [] "f" "w2" "c2" [7]%R 1 "y"); [left; reflexivity|apply P; cbn; tauto|eexists; right; right; left; reflexivity|right; right; right; left; reflexivity|].
      intros ds H. unfold announced in H. cbn in H. repeat (destruct H as [E|H]; [try discriminate E; injection E as <-; reflexivity|]). destruct H.
  - intros before nd after i rest E OP EI other HO HI.
    do 6 (destruct before as [|? before];
      [injection E as <- <-; cbn in OP; try (exfalso; intuition discriminate); injection EI as <- _; cbn in HO; repeat (destruct HO as [<-|HO]; [cbn in HI; intuition discriminate|]); destruct HO
      |injection E as <- E]). destruct before; discriminate.
  - exact (ex72_runs x HX).
  - constructor.
    + intros nm H. apply ex72_produced in H. cbn in H. destruct H as [<-|[<-|[<-|[<-|[<-|[<-|[<-|[]]]]]]]]; eexists; unfold announced; cbn; eauto 10.
    + intros nm ds _ H. unfold announced in H. cbn in H. repeat (destruct H as [E|H]; [injection E as <- <-; split; [cbn; lia|]; split; [repeat constructor; lia|cbn; try reflexivity; lia]|]). destruct H.
    + intros nm ds H. unfold announced in H. cbn in H. repeat (destruct H as [E|H]; [injection E as <- <-; eexists; reflexivity|]). destruct H.
  - reflexivity.
  - intros nd Hn. each Hn; cbn [n_inputs]; repeat (constructor; [cbn; intuition discriminate|]); constructor.
Qed.

(** A Pad node without the "mode" attribute, which ONNX reads as "constant", is
    not imported, whatever the model (attributes["mode"], 470). *)
Theorem C72_pad_without_mode_refuted : forall (impl : conv_impl) (m : source) (a : attrs) (inputs : list string) (output : string),
  attr_of "mode" a = None -> import_layer impl m (mkONode "Pad" a inputs output) = None.
Proof.
  intros impl m a inputs output E. unfold import_layer. cbn [n_op n_attrs n_inputs n_output]. destruct inputs as [|i rest]; [reflexivity|].
  cbn [String.eqb Ascii.eqb Bool.eqb]. unfold read_mode, opt_str. rewrite E. cbn [bind].
  destruct rest as [|pn [|vn [|]]]; try reflexivity. destruct (integers m pn) as [P|]; [|reflexivity]. cbn [bind]. destruct (floats m vn) as [v|]; [|reflexivity]. cbn [bind].
  destruct (snd v) as [|c [|]]; reflexivity.
Qed.
Print Assumptions C72_pad_without_mode_refuted.
Example C72_pad_without_mode_example : attr_of "mode" [] = None.
Proof. reflexivity. Qed.

(** The layer number 0 has the announced dimensions of the input image. *)
Theorem C72_input_dimensions : forall (impl : conv_impl) (m : source) (input output : string) inputs env b C H W,
  well_formed m input output -> all_covered m -> exclusive m -> runs m inputs env -> annotated m env ->
  s_inputs m = [(input, [b; C; H; W])] -> 1 <= C /\ 1 <= H /\ 1 <= W ->
  exists md s, load_model impl m = Some (md, s) /\ lkind Rnum (md_layer Rnum md 0%nat) = KInput4 Rnum C H W.
Proof.
  intros impl m input output inputs env b C H W WF CV EX RU AN EI (HC & HH & HW). destruct (loaded m input output impl inputs env WF RU AN CV EX) as (nds & g & cs & s & HN & EL & LM & ES & HO & HI).
  eexists _, s. split; [exact LM|]. cbn [md_layer].
  destruct (layer_zero m input output impl env WF EX nds HN g cs EL) as (ids & EI' & ->). rewrite EI in EI'. injection EI' as <-.
  unfold input_layer, run_dims. cbn [map plain lkind].
  destruct (Z.eqb_spec C 0); [lia|]. destruct (Z.eqb_spec H 0); [lia|]. destruct (Z.eqb_spec W 0); [lia|]. reflexivity.
Qed.
Print Assumptions C72_input_dimensions.
(** The model of C72_example meets these hypotheses too. *)
Example C72_input_dimensions_example : s_inputs ex72 = [("x", [0; 1; 2; 2])].
Proof. reflexivity. Qed.

(** ** Example with ReduceMean and Tile: their operands have names of one character. *)
Definition ex72r : source := mkSource 18 [("x", [0; 3])] [("axes", TInt [1] [1]); ("times", TInt [2] [1; 2])]
  [mkONode "ReduceMean" [] ["x"; "axes"] "m"; mkONode "Tile" [] ["m"; "times"] "out"] [("m", [0; 1])] [("out", [0; 2])].
Definition ex72r_m (x : list R) : R := red_value Rnum RMean [nthZ 0%R x 0; nthZ 0%R x 1; nthZ 0%R x 2].
Definition ex72r_env (x : list R) (nm : string) : option tensor :=
  match find (fun e => String.eqb nm (fst e)) ([("x", TFloat [1; 3] x); ("m", TFloat [1; 1] [ex72r_m x]); ("out", TFloat [1; 2] [ex72r_m x; ex72r_m x])] ++ s_init ex72r)
  with Some e => Some (snd e) | None => None end.
Example C72_reduce_example : forall x, zlen x = 3 ->
  well_formed ex72r "x" "out" /\ all_covered ex72r /\ exclusive ex72r /\ runs ex72r (fun _ => x) (ex72r_env x) /\ annotated ex72r (ex72r_env x) /\
  ex72r_env x "out" = Some (TFloat [1; 2] [ex72r_m x; ex72r_m x]) /\ reads_once ex72r /\
  ex72r_m x = ((0 + nthZ 0 x 0 + nthZ 0 x 1 + nthZ 0 x 2) / 3)%R.
Proof.
  intros x HX. split; [|split; [|split; [|split; [|split; [|split; [|split]]]]]].
  - constructor.
    + reflexivity.
    + cbn. tauto.
    + cbn. repeat (constructor; [cbn; intuition discriminate|]). constructor.
    + cbn. intuition discriminate.
    + intros before nd after E nm H. do 2 (destruct before as [|? before]; [injection E as <- _; cbn in H; cbn; intuition auto|injection E as <- E]). destruct before; discriminate.
    + intros nm H NE. cbn in H. destruct H as [->|[<-|[<-|[]]]]; [| |congruence]; [exists (mkONode "ReduceMean" [] ["x"; "axes"] "m")|exists (mkONode "Tile" [] ["m"; "times"] "out")]; cbn; tauto.
  - intros nd Hn. each Hn; cbn [n_inputs]; (split; [|eexists; split; [left; reflexivity|unfold produced; cbn; tauto]]).
    + apply (v_reduce ex72r "ReduceMean" [] RMean "x" ["axes"] [1] 0 "m"); try reflexivity; [unfold produced; cbn; tauto|right; exists "axes", [1]; split; [reflexivity|left; reflexivity]|].
      intros ds H. unfold announced in H. cbn in H. destruct H as [E|[E|[E|[]]]]; try discriminate E. injection E as <-.
      split; [constructor; [unfold valid_axis; cbn; lia|constructor]|]. split; [cbn; lia|]. intros _ [E|E]; discriminate E.
    + apply (v_tile ex72r [] "m" "times" [2] [1; 2] "out"); [reflexivity|unfold produced; cbn; tauto|right; left; reflexivity|repeat constructor|cbn; lia].
  - intros before nd after i rest E OP EI other HO HI.
    do 2 (destruct before as [|? before]; [injection E as <- <-; cbn in OP; exfalso; intuition discriminate|injection E as <- E]). destruct before; discriminate.
  - split; [reflexivity|]. split; [|split; [|split]].
    + intros nm ds [E|[]]. injection E as <- <-. reflexivity.
    + intros nm t H. cbn in H. repeat (destruct H as [E|H]; [injection E as <- <-; reflexivity|]). destruct H.
    + intros nd Hn. each Hn; (eexists; split; [reflexivity|]); cbn [n_op n_attrs n_inputs map]; (apply o_basic; [cbn; intuition discriminate|]).
      * apply (h_reduce "ReduceMean" [] RMean [1; 3] [1] 1 x [ex72r_m x]); try reflexivity; [constructor; [unfold valid_axis; cbn; lia|constructor]|].
        split; [reflexivity|]. intros idx HI. cbn in HI. inversion HI as [|? i ? l Hi Hl]; subst. inversion Hl as [|? j ? l' Hj Hl']; subst. inversion Hl'; subst.
        assert (i = 0) by lia. assert (j = 0) by lia. subst. reflexivity.
      * apply (h_tile [] [1; 1] [1; 2] [ex72r_m x] [ex72r_m x; ex72r_m x]); [reflexivity|]. split; [reflexivity|].
        intros idx HI. cbn in HI. inversion HI as [|? i ? l Hi Hl]; subst. inversion Hl as [|? j ? l' Hj Hl']; subst. inversion Hl'; subst.
        assert (i = 0) by lia. assert (J : j = 0 \/ j = 1) by lia. subst. destruct J as [->| ->]; reflexivity.
    + intros nm t H. unfold ex72r_env in H. cbn [find fst s_init ex72r Datatypes.app] in H.
      repeat (match type of H with context [if String.eqb nm ?k then _ else _] => destruct (String.eqb nm k) end; [injection H as <-; cbn [snd sized_tensor]; try (split; [repeat constructor; lia|]); first [exact HX|reflexivity]|]). discriminate.
  - constructor.
    + intros nm H. unfold produced in H. cbn in H. destruct H as [[<-|[]]|[<-|[<-|[]]]]; eexists; unfold announced; cbn; eauto 10.
    + intros nm ds _ H. unfold announced in H. cbn in H. repeat (destruct H as [E|H]; [injection E as <- <-; split; [cbn; lia|]; split; [repeat constructor; lia|cbn; try reflexivity; lia]|]). destruct H.
    + intros nm ds H. unfold announced in H. cbn in H. repeat (destruct H as [E|H]; [injection E as <- <-; eexists; reflexivity|]). destruct H.
  - reflexivity.
  - intros nd Hn. each Hn; cbn [n_inputs]; repeat (constructor; [cbn; intuition discriminate|]); constructor.
  - unfold ex72r_m, red_value. cbn. f_equal.
Qed.

(** A model with a Tile or Reduce node whose operand's name contains a
    character that is not itself the name of a tensor cannot be loaded,
    whatever the rest of the model: the importer records the name, a string,
    where it should record a list of names, and looks its characters up. *)
Theorem C72_operand_name_refuted : forall (impl : conv_impl) (m : source) (nd : node) pre ch suf rest,
  In nd (s_nodes m) -> In (n_op nd) ["Tile"; "ReduceSum"; "ReduceMean"; "ReduceProd"; "ReduceMax"; "ReduceMin"] ->
  n_inputs nd = String.append pre (String ch suf) :: rest -> ~ In (String ch EmptyString) (defined_names m) ->
  load_model impl m = None.
Proof. exact apart_fails. Qed.
Print Assumptions C72_operand_name_refuted.
(** The model of C72_reduce_example, with its intermediate tensor called "mean". *)
Example C72_operand_name_example : forall impl,
  load_model impl (mkSource 18 [("x", [0; 3])] [("axes", TInt [1] [1]); ("times", TInt [2] [1; 2])]
    [mkONode "ReduceMean" [] ["x"; "axes"] "mean"; mkONode "Tile" [] ["mean"; "times"] "out"] [("mean", [0; 1])] [("out", [0; 2])]) = None.
Proof.
  intros impl. eapply (C72_operand_name_refuted impl _ _ "" (Ascii.ascii_of_nat 109) "ean" ["times"]); [right; left; reflexivity|left; reflexivity|reflexivity|cbn; intuition discriminate].
Qed.
