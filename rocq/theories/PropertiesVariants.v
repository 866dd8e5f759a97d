(** * C73: the implementation chosen for the convolutions does not change what
    the program computes.
    [versions] is the argument of CodeGenerator: it maps layer numbers
    ([ById n]) or type names ([ByName "Conv2D"]) to implementation names.  The
    theorems cover 6loops (the default), std_gemm_nn (the default of the command
    line) and indirect_gemm_nn, chosen layer by layer; [usable versions md] asks
    that every convolution gets one of them, where it is applicable
    (Variants.v: dilation 1 for the matrix products, ...).  C16 and C17 show that
    the other gemm variants, and the indirect one outside these conditions, do
    change the result. *)
From Coq Require Import String.
From Coq Require Import ZArith List Lia Bool Reals QArith.
Import ListNotations.
Open Scope string_scope.
Open Scope list_scope.
Open Scope Z_scope.
From Verif Require Import CMem Num RealInst Graph GraphSpec Net NetProofs LayerKinds Conv Versioning Variants VariantsProofs PropertiesNet.
From Verif Require ModelProofs ExportSpec OnnxModelOps OnnxModelOps3 OnnxModelSpec OnnxModel OnnxModelNet PropertiesOnnxModel KerasSpec Keras KerasOps KerasModel KerasRun TorchSpec Torch TorchOps TorchModel TorchRun PropertiesKeras PropertiesTorch.

Definition usable (N : num) (versions : requests) (md : model N) : Prop :=
  forall n impl c w b, In n (dnn (md_graph N md)) -> lk N md n = KConv N impl c w b ->
  exists v, variant_named (requested versions n) = Some v /\ applicable v c.

Lemma usable_versions N versions md : usable N versions md ->
  exists ch, with_versions N versions md = Some (with_impl N ch md) /\
    forall n v c w b, In n (dnn (md_graph N md)) -> lk N md n = KConv N v c w b -> applicable (ch n) c.
Proof.
  intros U. eexists. split.
  - unfold with_versions. replace (forallb _ _) with true; [reflexivity|]. symmetry. apply forallb_forall. intros n Hn.
    destruct (lk N md n) eqn:E; try reflexivity. destruct (U n _ _ _ _ Hn E) as (v & -> & _). reflexivity.
  - intros n v c w b Hn E. cbn beta. destruct (U n _ _ _ _ Hn E) as (v' & -> & A). exact A.
Qed.

(** Any arithmetic where products commute and vanish with a zero factor, any
    supported network (C08), any two choices: on the same input, both programs
    end normally with the same output. *)
Theorem C73_variants_agree_partial : forall (N : num) (ninf : T N) (q : Q -> T N) (md : model N) inp (versions1 versions2 : requests),
  zero_product_law N -> mul_comm_law N -> supported N md inp -> usable N versions1 md -> usable N versions2 md ->
  exists md1 md2 s, with_versions N versions1 md = Some md1 /\ with_versions N versions2 md = Some md2 /\
    tri_topo (md_graph N md1) = Some s /\ tri_topo (md_graph N md2) = Some s /\
  forall mem1 mem2, declared (python_net N ninf q md1 s) s mem1 -> declared (python_net N ninf q md2 s) s mem2 -> mem1 NnIn = mem2 NnIn ->
  exists out1 out2, inference (python_net N ninf q md1 s) s mem1 = Some out1 /\ inference (python_net N ninf q md2 s) s mem2 = Some out2 /\
    out1 NnOut = out2 NnOut.
Proof.
  intros N ninf q md inp v1 v2 Z0 MC SP U1 U2. destruct (usable_versions N v1 md U1) as (c1 & E1 & A1). destruct (usable_versions N v2 md U2) as (c2 & E2 & A2).
  destruct (C08_inference_computes_the_network N ninf q md inp SP) as (s & ES & _).
  exists (with_impl N c1 md), (with_impl N c2 md), s. split; [exact E1|]. split; [exact E2|]. split; [exact ES|]. split; [exact ES|].
  intros m1 m2 D1 D2 EI. destruct (variant_program N ninf q md c1 Z0 MC A1 inp s SP ES m1 D1) as (val1 & o1 & V1 & I1 & O1).
  destruct (variant_program N ninf q md c2 Z0 MC A2 inp s SP ES m2 D2) as (val2 & o2 & V2 & I2 & O2).
  exists o1, o2. split; [exact I1|]. split; [exact I2|]. rewrite O1, O2. f_equal. rewrite EI in V1.
  apply (C08_value_unique N ninf q md inp s (m2 NnIn)); try assumption.
  apply (ModelProofs.IO N ninf q md inp s SP ES). exact (ModelProofs.last_in N ninf q md inp s SP ES).
Qed.
Print Assumptions C73_variants_agree_partial.

(** ** Imported models: whatever the usable choice, the generated program
    returns what ONNX, Keras, PyTorch specify (C72, C69, C71, whose conditions
    are repeated here). *)
Theorem C73_onnx_partial : forall (ninf : R) (q : Q -> R) (m : OnnxModelSpec.source) (input output : string) inputs env ods y,
  OnnxModelSpec.well_formed m input output -> OnnxModelSpec.all_covered m -> OnnxModelSpec.exclusive m -> OnnxModelSpec.runs m inputs env ->
  OnnxModelSpec.annotated m env -> env output = Some (ExportSpec.TFloat ods y) -> OnnxModelSpec.reads_once m ->
  exists md s, OnnxModel.load_model SixLoops m = Some (md, s) /\
  forall versions, usable Rnum versions md ->
  exists md', with_versions Rnum versions md = Some md' /\ tri_topo (md_graph Rnum md') = Some s /\
  forall (mem0 : mem R), declared (python_net Rnum ninf q md' s) s mem0 -> mem0 NnIn = inputs input ->
  exists mem1, inference (python_net Rnum ninf q md' s) s mem0 = Some mem1 /\ mem1 NnOut = y.
Proof.
  intros ninf q m input output inputs env ods y WF CV EX RU AN EO RO.
  destruct (OnnxModelNet.loaded m input output SixLoops inputs env WF RU AN CV EX) as (nds & g & cs & s & HN & EL & LM & ES & HO & HI).
  eexists _, s. split; [exact LM|]. intros versions U. destruct (usable_versions Rnum versions _ U) as (ch & EV & A).
  eexists. split; [exact EV|]. split; [exact ES|]. intros mem0 D EIN.
  pose proof (OnnxModelNet.model_supported m input output SixLoops inputs env WF RU AN EX nds HN g cs EL eq_refl RO) as SP.
  destruct (variant_program Rnum ninf q _ ch KerasOps.zero_product_R Rmult_comm A O s SP ES mem0 D) as (val & mem1 & V & I1 & O1).
  exists mem1. split; [exact I1|]. rewrite O1. rewrite EIN in V.
  rewrite (OnnxModelNet.output_value m input output SixLoops inputs env WF RU AN EX nds HN g cs EL ninf q s val HO HI V). unfold OnnxModelOps.data. rewrite EO. reflexivity.
Qed.
Print Assumptions C73_onnx_partial.

Theorem C73_keras_partial : forall (ninf : R) (q : Q -> R) (m : KerasSpec.kmodel) (sh : string -> list Z),
  KerasSpec.well_formed m -> KerasModel.shaped m sh -> KerasModel.positive_dims (KerasSpec.k_shape m) -> KerasModel.all_importable m sh ->
  (KerasSpec.k_sequential m = false -> KerasModel.softmax_last_only (KerasSpec.k_nodes m)) ->
  (forall n, In n (KerasSpec.k_nodes m) -> KerasOps.generable (KerasSpec.n_op n) (map sh (KerasSpec.n_inputs n)) /\ NoDup (KerasSpec.n_inputs n)) ->
  (forall n n' fmt nm, In n (KerasSpec.k_nodes m) -> KerasSpec.n_op n = KerasSpec.Flatten fmt -> In nm (KerasSpec.n_inputs n) ->
     In n' (KerasSpec.k_nodes m) -> In nm (KerasSpec.n_inputs n') -> n' = n) ->
  exists md s, Keras.load_model SixLoops m = Some md /\ tri_topo (md_graph Rnum md) = Some s /\
  forall versions, usable Rnum versions md ->
  exists md', with_versions Rnum versions md = Some md' /\ tri_topo (md_graph Rnum md') = Some s /\
  forall (mem0 : mem R) env, declared (python_net Rnum ninf q md' s) s mem0 -> KerasSpec.runs m (mem0 NnIn) env ->
  exists mem1, inference (python_net Rnum ninf q md' s) s mem0 = Some mem1 /\ mem1 NnOut = KerasSpec.vals (env (KerasSpec.k_output m)).
Proof.
  intros ninf q m sh WF SH PI IM SM GN FL. destruct (KerasRun.load_ok m sh WF SH PI IM SM SixLoops) as (md & EL & ID).
  destruct (KerasRun.scheduled m sh WF SixLoops md ID) as (s & ES & H0 & HL & _). exists md, s. split; [exact EL|]. split; [exact ES|].
  intros versions U. destruct (usable_versions Rnum versions _ U) as (ch & EV & A).
  eexists. split; [exact EV|]. split; [exact ES|]. intros mem0 env D RU.
  assert (SP : supported Rnum md 0).
  { eapply (KerasRun.keras_supported m sh WF SH PI IM SixLoops md ID ninf q); [reflexivity|intros n Hn; apply GN; exact Hn|intros n Hn; apply GN; exact Hn|exact FL]. }
  destruct (variant_program Rnum ninf q _ ch KerasOps.zero_product_R Rmult_comm A O s SP ES mem0 D) as (val & mem1 & V & I1 & O1).
  exists mem1. split; [exact I1|]. rewrite O1.
  assert (HX : zlen (mem0 NnIn) = KerasSpec.size_of (KerasSpec.k_shape m)).
  { etransitivity; [exact (D NnIn)|]. cbn [array_size]. rewrite H0. unfold python_net, net_with. cbn [size]. rewrite (md_size_same Rnum md ch). rewrite <- (KerasModel.loc_input m).
    rewrite (KerasRun.size_loc m sh WF SH PI IM SixLoops md ID ninf q) by (left; reflexivity). rewrite (proj1 SH). reflexivity. }
  eapply (KerasRun.output_value m sh WF SH PI IM SixLoops md ID ninf q); eassumption.
Qed.
Print Assumptions C73_keras_partial.

Theorem C73_pytorch_partial : forall (ninf : R) (q : Q -> R) (m : TorchSpec.program) (sh : string -> list Z),
  TorchSpec.well_formed m -> TorchModel.shaped m sh -> TorchOps.positive_dims (TorchSpec.p_shape m) -> TorchModel.all_importable m sh ->
  TorchModel.exclusive m -> TorchModel.absorbable m -> TorchRun.output_ordered m sh ->
  (forall n, In n (TorchSpec.p_nodes m) -> TorchOps.generable (TorchSpec.n_op n) /\ NoDup (TorchSpec.n_inputs n)) ->
  exists md s, Torch.load_pytorch SixLoops m = Some (md, s) /\ tri_topo (md_graph Rnum md) = Some s /\
  forall versions, usable Rnum versions md ->
  exists md', with_versions Rnum versions md = Some md' /\ tri_topo (md_graph Rnum md') = Some s /\
  forall (mem0 : mem R) x env, declared (python_net Rnum ninf q md' s) s mem0 -> zlen x = KerasSpec.size_of (TorchSpec.p_shape m) -> TorchSpec.runs m x env ->
  mem0 NnIn = TorchSpec.in_memory m (TorchSpec.p_shape m) x ->
  exists mem1, inference (python_net Rnum ninf q md' s) s mem0 = Some mem1 /\
    mem1 NnOut = TorchSpec.in_memory m (KerasSpec.dims (env (TorchSpec.p_output m))) (KerasSpec.vals (env (TorchSpec.p_output m))).
Proof.
  intros ninf q m sh WF SH PI IM EX AB OO GN. destruct (PropertiesTorch.load_state SixLoops ninf q m sh WF SH PI IM EX AB) as (st & h & r & t & s & V & EL & ES & H0 & HL).
  eexists _, s. split; [exact EL|]. split; [exact ES|]. intros versions U. destruct (usable_versions Rnum versions _ U) as (ch & EV & A).
  eexists. split; [exact EV|]. split; [exact ES|]. intros mem0 x env D HX RU EIN.
  pose proof (TorchRun.torch_supported m sh WF PI EX SixLoops ninf q st h r t V eq_refl (fun n Hn => proj1 (GN n Hn)) (fun n Hn => proj2 (GN n Hn))) as SP. cbv zeta in SP.
  destruct (variant_program Rnum ninf q _ ch KerasOps.zero_product_R Rmult_comm A O s SP ES mem0 D) as (val & mem1 & EV1 & I1 & O1).
  exists mem1. split; [exact I1|]. rewrite O1. rewrite EIN in EV1.
  eapply (TorchRun.output_value m sh WF SH PI IM EX SixLoops ninf q st h r t V); eassumption.
Qed.
Print Assumptions C73_pytorch_partial.

(** ** Example: the network of C72_example with its convolution as a matrix
    product (for all Conv2D layers, as the command line does) and as an indirect
    one (for layer 1); the conditions of the theorems hold. *)
Definition ex73_std : requests := fun k => match k with ByName "Conv2D" => Some (Some "std_gemm_nn") | _ => None end.
Definition ex73_indirect : requests := fun k => match k with ById 1 => Some (Some "indirect_gemm_nn") | _ => None end.
Definition convolutions (md : model Rnum) : list (option (nat * conv_params)) :=
  map (fun n => match lk Rnum md n with KConv _ _ c _ _ => Some (n, c) | _ => None end) (dnn (md_graph Rnum md)).
Definition ex73_conv : conv_params := mkConv 1 2 2 1 2 2 2 2 1 1 0 0 1 1.
Lemma ex73_of md : dnn (md_graph Rnum md) = [0; 1; 2; 3; 4; 5]%nat -> convolutions md = [None; Some (1%nat, ex73_conv); None; None; None; None] ->
  usable Rnum ex73_std md /\ usable Rnum ex73_indirect md /\
  (exists md1, with_versions Rnum ex73_std md = Some md1 /\ exists w b, lk Rnum md1 1 = KConv Rnum StdGemmNN ex73_conv w b) /\
  (exists md1, with_versions Rnum ex73_indirect md = Some md1 /\ exists w b, lk Rnum md1 1 = KConv Rnum IndirectGemmNN ex73_conv w b).
Proof.
  intros S2 S1. unfold convolutions in S1. rewrite S2 in S1. cbn [map] in S1. injection S1 as K0 K1 K2 K3 K4 K5.
  assert (ONE : forall n impl c w b, In n (dnn (md_graph Rnum md)) -> lk Rnum md n = KConv Rnum impl c w b -> n = 1%nat /\ c = ex73_conv).
  { intros n impl c w b Hn E. rewrite S2 in Hn. destruct Hn as [<-|[<-|[<-|[<-|[<-|[<-|[]]]]]]].
    - rewrite E in K0; discriminate.
    - rewrite E in K1. injection K1 as K1. split; [reflexivity|exact K1].
    - rewrite E in K2; discriminate.
    - rewrite E in K3; discriminate.
    - rewrite E in K4; discriminate.
    - rewrite E in K5; discriminate. }
  assert (U1 : usable Rnum ex73_std md). { intros n impl c w b Hn E. destruct (ONE _ _ _ _ _ Hn E) as (-> & ->). exists StdGemmNN. split; reflexivity. }
  assert (U2 : usable Rnum ex73_indirect md).
  { intros n impl c w b Hn E. destruct (ONE _ _ _ _ _ Hn E) as (-> & ->). exists IndirectGemmNN. split; [reflexivity|]. split; [reflexivity|]. split; [unfold usual_sizes; cbn; repeat split; lia|].
    left. split; intros i Hi; exists i, 0; cbn in *; lia. }
  split; [exact U1|]. split; [exact U2|].
  destruct (lk Rnum md 1) eqn:E1; try discriminate K1. injection K1 as ->.
  assert (G : forall vs v', usable Rnum vs md -> variant_named (requested vs 1) = Some v' ->
    exists md1, with_versions Rnum vs md = Some md1 /\ exists w b, lk Rnum md1 1 = KConv Rnum v' ex73_conv w b).
  { intros vs v' U EV. destruct (usable_versions Rnum _ md U) as (ch & E & _). unfold with_versions in E |- *.
    destruct (forallb _ _); [|discriminate]. eexists. split; [reflexivity|]. exists w, b. unfold lk in E1. unfold lk, with_impl, implemented_by. cbn [md_layer]. rewrite E1. rewrite EV. reflexivity. }
  split; apply G; try assumption; reflexivity.
Qed.
Example C73_example : exists md s, OnnxModel.load_model SixLoops PropertiesOnnxModel.ex72 = Some (md, s) /\ supported Rnum md 0 /\
  usable Rnum ex73_std md /\ usable Rnum ex73_indirect md /\
  (exists md1, with_versions Rnum ex73_std md = Some md1 /\ exists w b, lk Rnum md1 1 = KConv Rnum StdGemmNN ex73_conv w b) /\
  (exists md1, with_versions Rnum ex73_indirect md = Some md1 /\ exists w b, lk Rnum md1 1 = KConv Rnum IndirectGemmNN ex73_conv w b).
Proof.
  destruct (PropertiesOnnxModel.C72_example [1; 2; 3; 4]%R eq_refl) as (WF & CV & EX & RU & AN & EO & RO).
  destruct (OnnxModelNet.loaded PropertiesOnnxModel.ex72 "x" "y" SixLoops _ _ WF RU AN CV EX) as (nds & g & cs & s & HN & EL & LM & ES & HO & HI).
  pose proof (OnnxModelNet.model_supported PropertiesOnnxModel.ex72 "x" "y" SixLoops _ _ WF RU AN EX nds HN g cs EL eq_refl RO) as SP.
  eexists _, s. split; [exact LM|]. split; [exact SP|]. clear SP.
  assert (S : option_map (fun r => (dnn (md_graph Rnum (fst r)), convolutions (fst r))) (OnnxModel.load_model SixLoops PropertiesOnnxModel.ex72) =
    Some ([0; 1; 2; 3; 4; 5]%nat, [None; Some (1%nat, ex73_conv); None; None; None; None])) by reflexivity.
  rewrite LM in S. cbn [option_map fst] in S. apply OnnxModelOps3.some_inj in S. apply ex73_of; [exact (eq_sym (f_equal fst S))|exact (eq_sym (f_equal snd S))].
Qed.
