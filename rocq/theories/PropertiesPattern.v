(** * Properties C36-C39, C57: the optimiser (pattern_matching).
    [initial md s] (Pattern.v): the list of layers and the generator's
    dictionaries as the importer and tri_topo leave them.
    [optimise]: PatternMatcher.match with the four registered patterns; the
    outcome is [Done st], [Raised] (a Python exception) or [OutOfFuel].
    [pn_inference st]: the C function generated from the optimised layers;
    [pn_compute_inference st]: the Python inference on them.
    [pn_declared st m]: the arrays of [m] have the sizes of the header generated
    after the optimisation.
    [documented_net], [evaluates], [md_post]: the documented value of the
    imported model, see PropertiesNet.v. *)
From Coq Require Import ZArith List Lia Bool QArith Qcanon Sorted.
Import ListNotations.
From Verif Require Import CMem Tensor Num NumInst Activation Movement Conv Pooling Pad Reduce Resize
  Graph GraphSpec GraphProofs3 GraphProofs4 Net NetProofs PropertiesMovement PropertiesGraph LayerKinds LayerKindsProofs ModelProofs
  PropertiesNet PropertiesActivation FuseProofs Pattern PatternProofs PatternProofs2 PatternProofs3 PatternProofs4 PatternTerm FuseValues FusionSafe.
From Verif Require Broadcast BroadcastProofs RealInst.
From Coq Require Reals Lra.
Open Scope Z_scope.

(** ** C36 (with C37's fusion in the same pass).  Conditions of [fusion_safe]:
    activations are only fused into layers whose code applies them, no
    activation layer is the identity, batch normalisations have the shape of
    their operand and are fused in exact arithmetic, a channels_last model does
    not end with an activation layer, and there is no x*sigmoid(x).  Each is
    needed: see the refuted theorems below. *)
Theorem C36_optimised_inference_partial : forall (N : num) (ninf : T N) (q : Q -> T N) (md : model N) inp s,
  supported N md inp -> tri_topo (md_graph N md) = Some s -> StronglySorted lt (order s) -> fusion_safe N md inp ->
  exists st, optimise N (initial N md s) = Done N st /\
  forall m : mem (T N), pn_declared N ninf q st m ->
  exists val m',
    evaluates (documented_net N ninf q md s) (m NnIn) val /\
    pn_inference N ninf q st m = Some m' /\
    m' NnOut = md_post N md s (val (last (order s) O)) /\
    (python_safe N md -> pn_compute_inference N ninf q st (m NnIn) = Some (m' NnOut)).
Proof.
  intros N ninf q md inp s SP HS IDS FS.
  destruct (optimised_code N ninf q md inp s SP HS IDS FS) as (st & E & PV & PY & VAL).
  exists st. split; [exact E|]. intros m D.
  destruct (model_values_exist N ninf q md inp s SP HS (m NnIn)) as (val & Hv).
  destruct (VAL (m NnIn) val Hv) as (val' & Hv' & EO).
  destruct (pinv_code N ninf q inp st m PV D val' Hv') as (m' & EI & ER & _).
  exists val, m'. split; [exact Hv|]. split; [exact EI|]. split; [rewrite ER; exact EO|].
  intros PS. rewrite ER. apply (pinv_python N ninf q inp st (m NnIn) PV); [apply (PY PS)| |exact Hv'].
  rewrite (D NnIn). unfold array_size. cbn [schedule_of order].
  pose proof (sp_single N _ inp (pv_supported N inp st PV)) as (H & _). cbn in H.
  destruct (pn_layers N st); [discriminate|]. injection H as ->. reflexivity.
Qed.
Print Assumptions C36_optimised_inference_partial.

(** The same, against the code generated without the optimiser. *)
Theorem C36_same_output_partial : forall (N : num) (ninf : T N) (q : Q -> T N) (md : model N) inp s,
  supported N md inp -> tri_topo (md_graph N md) = Some s -> StronglySorted lt (order s) -> fusion_safe N md inp ->
  exists st, optimise N (initial N md s) = Done N st /\
  forall m1 m2 : mem (T N), declared (python_net N ninf q md s) s m1 -> pn_declared N ninf q st m2 -> m1 NnIn = m2 NnIn ->
  exists m1' m2', inference (python_net N ninf q md s) s m1 = Some m1' /\ pn_inference N ninf q st m2 = Some m2' /\
    m1' NnOut = m2' NnOut.
Proof.
  intros N ninf q md inp s SP HS IDS FS.
  destruct (C36_optimised_inference_partial N ninf q md inp s SP HS IDS FS) as (st & E & H).
  exists st. split; [exact E|]. intros m1 m2 D1 D2 EQ.
  destruct (H m2 D2) as (val & m2' & Hv & E2 & O2 & _). rewrite <- EQ in Hv.
  destruct (model_inference_ok N ninf q md inp s SP HS m1 val D1 Hv) as (m1' & E1 & O1 & _).
  exists m1', m2'. split; [exact E1|]. split; [exact E2|]. rewrite O1, O2. reflexivity.
Qed.
Print Assumptions C36_same_output_partial.

(** 0 input 1x3x3; 1 convolution (2 filters 2x2); 2 batch normalisation; 3 ReLU;
    4 convolution (2 filters 1x1) reading 3; 5 Add(3, 4); 6 ReLU; 7 Dense 8->2. *)
Definition fx_graph := of_edges 8 [] [(0,1);(1,2);(2,3);(3,4);(3,5);(4,5);(5,6);(6,7)]%nat.
Notation qc l := (map (fun z => Q2Qc (inject_Z z)) l).
Definition fx_layer (n : nat) : layer Qcnum :=
  match n with
  | 0%nat => mkLayer Qcnum (KInput4 Qcnum 1 3 3) LinearAct
  | 1%nat => mkLayer Qcnum (KConv Qcnum SixLoops ex_conv1 (qc [1;2;3;4;-1;0;0;1]) (qc [1;0])) LinearAct
  | 2%nat => mkLayer Qcnum (KBatchNorm Qcnum 2 2 2 (qc [2;1]) (qc [1;0]) (qc [3;0]) (qc [-3;-2]) (Q2Qc 1)) LinearAct
  | 3%nat => mkLayer Qcnum (KActivation Qcnum 8) ReLu
  | 4%nat => mkLayer Qcnum (KConv Qcnum StdGemmNN ex_conv2 (qc [1;1;-1;1]) (qc [0;5])) LinearAct
  | 5%nat => mkLayer Qcnum (KBroadcast Qcnum Broadcast.BAdd [sh222; sh222] None sh222) LinearAct
  | 6%nat => mkLayer Qcnum (KActivation Qcnum 8) ReLu
  | _ => mkLayer Qcnum (KDense Qcnum 8 2 (qc [1;0;0;1;1;0;0;1;1;0;0;1;1;0;0;1]) (qc [0;1])) LinearAct
  end.
Definition fx_model := mkModel Qcnum fx_graph fx_layer false.
Definition fx_q (x : Q) : Qc := Q2Qc x.
Definition fx_schedule : schedule := match tri_topo fx_graph with Some s => s | None => mkSchedule [] [] [] 0 end.

Lemma Qcnum_zero : zero_product_law Qcnum.
Proof. intros x y; cbn [T n0 nadd nmul Qcnum]; ring. Qed.
Lemma Qcnum_comm : mul_comm_law Qcnum.
Proof. intros x y; cbn [T n0 nadd nmul Qcnum]; ring. Qed.

Ltac split_nodes H := cbn in H; repeat (destruct H as [<-|H]); try contradiction H.

Example C36_example_supported : supported Qcnum fx_model 0 /\ python_safe Qcnum fx_model /\ fusion_safe Qcnum fx_model 0 /\
  tri_topo (md_graph Qcnum fx_model) = Some fx_schedule /\ StronglySorted lt (order fx_schedule).
Proof.
  pose proof Qcnum_zero as ZZ. pose proof Qcnum_comm as ZC. pose proof Qcnum_field as ZF.
  assert (HA : forall a, exact_in_floats a -> act_supported Qcnum a) by (intros; left; assumption).
  split; [constructor|split; [constructor; [split|]|split; [constructor|split]]].
  - apply of_edges_linked. reflexivity.
  - apply (of_edges_acyclic _ _ _ (fun i => i)). reflexivity.
  - apply of_edges_no_repeat. repeat constructor; cbn; intuition congruence.
  - intros n Hn. split_nodes Hn; (split; [intros E; discriminate E|intros (w & E); discriminate E]).
  - apply of_edges_constants. reflexivity.
  - apply of_edges_single_input. reflexivity.
  - left. exists 1, 3, 3. split; [reflexivity|lia].
  - intros n Hn Hp. split_nodes Hn; try (exfalso; apply Hp; reflexivity);
      (split; [apply HA; exact I|]); repeat split; try (vm_compute; congruence); try assumption.
    all: try (cbn; repeat constructor; vm_compute; congruence).
    all: try (cbn; tauto).
    all: try (repeat constructor; cbn; tauto).
    all: try (repeat constructor; vm_compute; intuition congruence).
  - intros n p cl C H W Hn EK EP. split_nodes Hn; discriminate.
  - intros n Hn. split_nodes Hn; try exact I; try (split; [exact ZC|reflexivity]); try exact ZF.
    cbn. repeat split; try congruence; intros; try discriminate; try tauto; try ring; try (vm_compute; congruence).
    all: cbn in *; intuition (try congruence).
  - intros _ n Hn _. split_nodes Hn; exact I.
  - intros p n Hp Hn A1 A2 A3 A4 A5. split_nodes Hn; try discriminate A1; injection A4 as <-; reflexivity.
  - intros p n Hp Hn A1 A2 A3 A4 A5. split_nodes Hn; try discriminate A1; injection A4 as <-; split; [congruence|exact I|congruence|exact I].
  - intros n Hn A1. split_nodes Hn; try discriminate A1; discriminate.
  - intros p n C H W sc me va bi eps d Hp Hn EK EP EL ED. split_nodes Hn; try discriminate EK. injection EK as <- <- <- _ _ _ _ _. injection EP as <-.
    injection ED as <-. reflexivity.
  - intros. exact ZF.
  - discriminate.
  - intros p n m Hp Hn Hm A1 A2. split_nodes Hn; try discriminate A1; discriminate A2.
  - vm_compute. reflexivity.
  - vm_compute. repeat constructor.
Qed.

(** ** Running a model with and without the optimiser.  The arrays are filled
    with [d] before the call. *)
Section Run.
  Context (N : num) (ninf : T N) (q : Q -> T N) (d : T N) (md : model N).
  Definition fill (net : network (T N)) (s : schedule) (x : list (T N)) : mem (T N) := fun b =>
    match b with NnIn => x | _ => repeat d (Z.to_nat (array_size net s b)) end.
  (** Without: C, Python. *)
  Definition plain_c (x : list (T N)) : option (list (T N)) :=
    s <- tri_topo (md_graph N md) ;;
    m <- inference (python_net N ninf q md s) s (fill (python_net N ninf q md s) s x) ;; Some (m NnOut).
  Definition plain_py (x : list (T N)) : option (list (T N)) :=
    s <- tri_topo (md_graph N md) ;; compute_inference (python_net N ninf q md s) s x.
  (** With. *)
  Definition optimised : option (pnet N) :=
    s <- tri_topo (md_graph N md) ;; match optimise N (initial N md s) with Done _ st => Some st | _ => None end.
  Definition optimised_c (x : list (T N)) : option (list (T N)) :=
    st <- optimised ;;
    m <- pn_inference N ninf q st (fill (python_net N ninf q (model_of N st) (schedule_of N st)) (schedule_of N st) x) ;; Some (m NnOut).
  Definition optimised_py (x : list (T N)) : option (list (T N)) :=
    st <- optimised ;; pn_compute_inference N ninf q st x.
End Run.

(** Hypotheses: C36_example_supported.  Three layers are fused away and both
    programs compute the same two numbers. *)
Example C36_example :
  option_map (pn_layers Qcnum) (optimised Qcnum fx_model) = Some [0; 1; 4; 5; 7]%nat /\
  plain_c Qcnum (Q2Qc 0) fx_q (Q2Qc 9) fx_model (qc (ramp 9)) = Some (qc [76; 97]) /\
  optimised_c Qcnum (Q2Qc 0) fx_q (Q2Qc 7) fx_model (qc (ramp 9)) = Some (qc [76; 97]) /\
  optimised_py Qcnum (Q2Qc 0) fx_q fx_model (qc (ramp 9)) = Some (qc [76; 97]).
Proof. split; [|split; [|split]]; vm_compute; reflexivity. Qed.

(** ** C36 is false in general.  Each model below is one the unoptimised code is
    proved correct on ([supported]). *)
Definition listed (g : graph) (l : list (layer Znum)) (last : bool) : model Znum :=
  mkModel Znum g (fun n => nth n l (mkLayer Znum (KInput Znum 0) LinearAct)) last.
Ltac refuted_supported rk :=
  constructor;
  [ apply of_edges_linked; reflexivity
  | apply (of_edges_acyclic _ _ _ rk); reflexivity
  | apply of_edges_no_repeat; repeat constructor; cbn; intuition congruence
  | intros ? Hn; split_nodes Hn; (split; [intros E; first [discriminate E|eexists; reflexivity]|intros (? & E); first [discriminate E|reflexivity]])
  | apply of_edges_constants; reflexivity
  | apply of_edges_single_input; reflexivity
  | first [left; eexists _, _, _; split; [reflexivity|cbn; lia] | right; eexists; reflexivity]
  | let Hp := fresh in intros ? Hn Hp; split_nodes Hn; try (exfalso; apply Hp; reflexivity);
    (split; [first [left; exact I|right; split; [exact Znum_ring|split; [exact Znum_order|vm_compute; reflexivity]]]|]);
    repeat split; try (vm_compute; congruence); try exact Znum_zero;
    try (cbn; repeat constructor; vm_compute; congruence); try (cbn; tauto); try (repeat constructor; cbn; tauto);
    try (repeat constructor; vm_compute; intuition congruence)
  | intros ? ? ? ? ? ? Hn EK EP; split_nodes Hn; try discriminate; injection EP as <-; reflexivity ].

(** An activation that is the only reader of the input layer: an exception. *)
Definition in_relu := listed (of_edges 3 [] [(0,1);(1,2)]%nat)
  [mkLayer Znum (KInput Znum 2) LinearAct; mkLayer Znum (KActivation Znum 2) ReLu;
   mkLayer Znum (KDense Znum 2 2 [1;0;0;1] [0;0]) LinearAct] false.
Theorem C36_input_activation_refuted :
  supported Znum in_relu 0 /\
  (exists s, tri_topo (md_graph Znum in_relu) = Some s /\ optimise Znum (initial Znum in_relu s) = Raised Znum) /\
  plain_c Znum 0 ex_q 7 in_relu [-3; 4] = Some [0; 4].
Proof.
  split; [refuted_supported (fun i : nat => i)|]. split; [|vm_compute; reflexivity].
  eexists. split; [vm_compute; reflexivity|vm_compute; reflexivity].
Qed.
Print Assumptions C36_input_activation_refuted.

(** The same activation when a constant is listed between the two layers: no
    exception, but neither program applies it any more. *)
Definition in_relu_add := listed (of_edges 4 [1%nat] [(0,2);(1,3);(2,3)]%nat)
  [mkLayer Znum (KInput Znum 2) LinearAct; mkLayer Znum (KConstant Znum [10;20]) LinearAct; mkLayer Znum (KActivation Znum 2) ReLu;
   mkLayer Znum (KBroadcast Znum Broadcast.BAdd [Broadcast.mkShape 1 1 2; Broadcast.mkShape 1 1 2] None (Broadcast.mkShape 1 1 2)) LinearAct] false.
Theorem C36_lost_input_activation_refuted :
  supported Znum in_relu_add 0 /\
  plain_c Znum 0 ex_q 7 in_relu_add [-3; 4] = Some [10; 24] /\ plain_py Znum 0 ex_q in_relu_add [-3; 4] = Some [10; 24] /\
  optimised_c Znum 0 ex_q 7 in_relu_add [-3; 4] = Some [7; 24] /\ optimised_py Znum 0 ex_q in_relu_add [-3; 4] = Some [7; 24].
Proof. split; [refuted_supported (fun i : nat => i)|]. split; [|split; [|split]]; vm_compute; reflexivity. Qed.
Print Assumptions C36_lost_input_activation_refuted.

(** An activation after a Flatten: fused, and applied by neither program. *)
Definition flatten_relu := listed (of_edges 3 [] [(0,1);(1,2)]%nat)
  [mkLayer Znum (KInput4 Znum 1 1 2) LinearAct; mkLayer Znum (KFlatten Znum false 1 1 2) LinearAct; mkLayer Znum (KActivation Znum 2) ReLu] false.
Theorem C36_lost_flatten_activation_refuted :
  supported Znum flatten_relu 0 /\
  plain_c Znum 0 ex_q 7 flatten_relu [-3; 4] = Some [0; 4] /\ plain_py Znum 0 ex_q flatten_relu [-3; 4] = Some [0; 4] /\
  optimised_c Znum 0 ex_q 7 flatten_relu [-3; 4] = Some [-3; 4] /\ optimised_py Znum 0 ex_q flatten_relu [-3; 4] = Some [-3; 4].
Proof. split; [refuted_supported (fun i : nat => i)|]. split; [|split; [|split]]; vm_compute; reflexivity. Qed.
Print Assumptions C36_lost_flatten_activation_refuted.

(** An activation after a Softmax along one axis of a tensor: lost. *)
Definition softmax_clip := listed (of_edges 3 [] [(0,1);(1,2)]%nat)
  [mkLayer Znum (KInput4 Znum 1 2 2) LinearAct; mkLayer Znum (KSoftmax Znum 1 2 2 3) LinearAct;
   mkLayer Znum (KActivation Znum 4) (Clip (N := Znum) 5 4)] false.
Theorem C36_lost_softmax_activation_refuted :
  supported Znum softmax_clip 0 /\
  plain_c Znum 0 ex_q 7 softmax_clip [0;1;1;0] = Some [4;4;4;4] /\ plain_py Znum 0 ex_q softmax_clip [0;1;1;0] = Some [4;4;4;4] /\
  optimised_c Znum 0 ex_q 7 softmax_clip [0;1;1;0] = Some [0;1;1;0] /\ optimised_py Znum 0 ex_q softmax_clip [0;1;1;0] = Some [0;1;1;0].
Proof. split; [refuted_supported (fun i : nat => i)|]. split; [|split; [|split]]; vm_compute; reflexivity. Qed.
Print Assumptions C36_lost_softmax_activation_refuted.

(** A channels_last model ending with an activation: the order of the outputs
    changes. *)
Definition last_relu := listed (of_edges 3 [] [(0,1);(1,2)]%nat)
  [mkLayer Znum (KInput4 Znum 2 1 2) LinearAct; mkLayer Znum (KTile Znum 2 1 2 1 1 1) LinearAct; mkLayer Znum (KActivation Znum 4) ReLu] true.
Theorem C36_output_order_refuted :
  supported Znum last_relu 0 /\
  plain_c Znum 0 ex_q 7 last_relu [1;2;3;4] = Some [1;3;2;4] /\ plain_py Znum 0 ex_q last_relu [1;2;3;4] = Some [1;3;2;4] /\
  optimised_c Znum 0 ex_q 7 last_relu [1;2;3;4] = Some [1;2;3;4] /\ optimised_py Znum 0 ex_q last_relu [1;2;3;4] = Some [1;2;3;4].
Proof. split; [refuted_supported (fun i : nat => i)|]. split; [|split; [|split]]; vm_compute; reflexivity. Qed.
Print Assumptions C36_output_order_refuted.

(** Layers whose Python forward function ignores the fused activation. *)
Definition transpose_relu := listed (of_edges 3 [] [(0,1);(1,2)]%nat)
  [mkLayer Znum (KInput4 Znum 2 1 2) LinearAct; mkLayer Znum (KTranspose Znum 2 1 2 1 2 3) LinearAct; mkLayer Znum (KActivation Znum 4) ReLu] false.
Theorem C36_python_activation_refuted :
  supported Znum transpose_relu 0 /\ fusion_safe Znum transpose_relu 0 /\
  plain_py Znum 0 ex_q transpose_relu [1;-2;3;-4] = Some [1;0;3;0] /\
  optimised_c Znum 0 ex_q 7 transpose_relu [1;-2;3;-4] = Some [1;0;3;0] /\
  optimised_py Znum 0 ex_q transpose_relu [1;-2;3;-4] = Some [1;-2;3;-4].
Proof.
  split; [refuted_supported (fun i : nat => i)|]. split; [|split; [|split]; vm_compute; reflexivity].
  constructor.
  - intros p n Hp Hn A1 A2 A3 A4 A5. split_nodes Hn; try discriminate A1. injection A4 as <-. split; [congruence|exact I].
  - intros n Hn A1. split_nodes Hn; discriminate.
  - intros p n C H W sc me va bi eps d Hp Hn EK. split_nodes Hn; discriminate EK.
  - intros p n Hp Hn EK. split_nodes Hn; discriminate EK.
  - discriminate.
  - intros p n m Hp Hn Hm A1 A2. split_nodes Hn; try discriminate A1; discriminate A2.
Qed.
Print Assumptions C36_python_activation_refuted.

(** ** C37.  [convolution c w b act x] is the documented convolution (Conv.v);
    the batch normalisation of channel f is scale*(v - mean)/sqrt(var + eps) + bias.
    The weights and biases the optimiser writes into the convolution make it
    compute the normalisation of the original convolution, in exact arithmetic,
    whatever the algorithm [impl], and whatever activation follows. *)
Theorem C37_fused_weights : forall (N : num) (c : conv_params) w b scale mean var bias eps (act : T N -> T N) x,
  field_laws N -> 0 <= ic c -> 0 <= kh c -> 0 <= kw c -> 0 <= nf c -> 0 <= oh c -> 0 <= ow c ->
  convolution N c (fused_weights N c w scale var eps) (fused_biases N c b scale mean var bias eps) act x =
  tab3 (nf c) (oh c) (ow c) (fun f i j =>
    let v := at3 (n0 N) (oh c) (ow c) (convolution N c w b (fun v => v) x) f i j in
    act (nadd N (ndiv N (nmul N (nthZ (n0 N) scale f) (nsub N v (nthZ (n0 N) mean f)))
                        (nsqrt N (nadd N (nthZ (n0 N) var f) eps))) (nthZ (n0 N) bias f))).
Proof.
  intros N c w b scale mean var bias eps act x F H1 H2 H3 H4 H5 H6.
  pose proof (fused_conv_bn_meaning N (n0 N) (fun _ => n0 N) F SixLoops c w b scale mean var bias eps act x H1 H2 H3 H4 H5 H6) as E.
  unfold meaning_with in E. cbn [lkind] in E. rewrite E. clear E. unfold tab3, tab2. rewrite map_tab, Z.mul_assoc.
  apply tab_ext. intros k Hk.
  destruct (split3_range _ _ _ _ Hk H4 H5 H6) as (P1 & P2 & P3 & R1 & R2 & R3).
  cbn zeta. unfold at2, at3. rewrite idx3_join by lia.
  replace (k mod (oh c * ow c) + oh c * ow c * (k / (oh c * ow c))) with k; [reflexivity|].
  pose proof (Z.div_mod k (oh c * ow c) ltac:(nia)). lia.
Qed.
Print Assumptions C37_fused_weights.

(** The numbers of [fx_model]: two filters 2x2. *)
Example C37_example :
  map this (fused_weights Qcnum ex_conv1 (qc [1;2;3;4;-1;0;0;1]) (qc [2;1]) (qc [3;0]) (Q2Qc 1)) =
    [1#2; 1; 3#2; 2; -1; 0; 0; 1]%Q /\
  map this (convolution Qcnum ex_conv1 (fused_weights Qcnum ex_conv1 (qc [1;2;3;4;-1;0;0;1]) (qc [2;1]) (qc [3;0]) (Q2Qc 1))
    (fused_biases Qcnum ex_conv1 (qc [1;0]) (qc [2;1]) (qc [1;0]) (qc [3;0]) (qc [-3;-2]) (Q2Qc 1)) (fun v => v) (qc (ramp 9))) =
    [21#2; 31#2; 51#2; 61#2; 2; 2; 2; 2]%Q.
Proof. split; vm_compute; reflexivity. Qed.

(** The optimised inference of every model with such pairs: C36_optimised_inference_partial
    (fx_model has one). *)

(** ** C38.  x*sigmoid(x) is SiLU, element by element, in exact arithmetic when
    exp(-v)*exp(v) = 1 and 1 + exp(v) is never 0 (the reals: C38_reals). *)
Record exp_laws (N : num) : Prop := {
  exp_opp : forall v, nmul N (nexp N (nopp N v)) (nexp N v) = n1 N;
  exp_nonzero : forall v, nadd N (n1 N) (nexp N v) <> n0 N
}.
Section SigmoidSilu.
  Context (N : num) (F : field_laws N).
  Add Ring NR1 : (num_ring_theory N (fl_ring N F)).
  Lemma sigmoid_silu : exp_laws N -> forall v, nmul N v (compute N Sigmoid v) = compute N Silu v.
  Proof.
    intros [E1 E2] v. pose proof (fl_ring N F) as R.
    assert (DIV1 : forall b, ndiv N v b = nmul N v (ndiv N (n1 N) b)).
    { intros b. rewrite <- (div_mul N F). f_equal. ring. }
    cbn [compute]. rewrite DIV1. f_equal. destruct (nlt N v (n0 N)); [|reflexivity].
    set (u := nexp N v) in *. set (w := nexp N (nopp N v)) in *.
    assert (WU : nmul N w u = n1 N) by apply E1.
    pose proof (div_cancel N F u (nadd N (n1 N) u) (E2 v)) as A.
    pose proof (div_cancel N F (n1 N) (nadd N (n1 N) w) (E2 (nopp N v))) as B.
    set (a := ndiv N u (nadd N (n1 N) u)) in *. set (b := ndiv N (n1 N) (nadd N (n1 N) w)) in *.
    assert (A2 : nmul N a (nadd N (n1 N) w) = n1 N).
    { transitivity (nmul N w (nmul N a (nadd N (n1 N) u))); [|rewrite A; exact WU].
      transitivity (nmul N a (nadd N (nmul N w u) w)); [rewrite WU; reflexivity|ring]. }
    transitivity (nmul N a (nmul N b (nadd N (n1 N) w))); [rewrite B; ring|].
    transitivity (nmul N b (nmul N a (nadd N (n1 N) w))); [ring|]. rewrite A2. ring.
  Qed.
End SigmoidSilu.
Lemma pick_in n k : 0 <= k < n -> Broadcast.pick n k = k.
Proof. intros H. unfold Broadcast.pick. destruct (Z.eqb_spec n 1); lia. Qed.

(** The layers: a Multiply of two operands of one shape, without constant, reading
    a tensor x and the Sigmoid of x in either order, computes the tensor of the
    SiLU activation layer that replaces them. *)
Theorem C38_sigmoid_multiply_is_silu : forall (N : num) (ninf : T N) (q : Q -> T N) (sh : Broadcast.shape) x n (swapped : bool),
  field_laws N -> exp_laws N -> 0 < Broadcast.sC sh -> 0 < Broadcast.sH sh -> 0 < Broadcast.sW sh ->
  zlen x = Broadcast.sC sh * Broadcast.sH sh * Broadcast.sW sh ->
  let sx := meaning N ninf q (mkLayer N (KActivation N n) Sigmoid) [x] in
  meaning N ninf q (mkLayer N (KBroadcast N Broadcast.BMul [sh; sh] None sh) LinearAct) (if swapped then [sx; x] else [x; sx]) =
  meaning N ninf q (mkLayer N (KActivation N n) Silu) [x].
Proof.
  intros N ninf q sh x n swapped F E HC HH HW HX sx.
  pose proof (fl_ring N F) as R.
  unfold meaning, meaning_with. cbn [lkind lact]. unfold BroadcastProofs.broadcast_result. cbn [compute]. rewrite map_id.
  assert (SX : sx = map (compute N Sigmoid) x) by reflexivity. clearbody sx. subst sx.
  set (z := Broadcast.sC sh * Broadcast.sH sh * Broadcast.sW sh) in *.
  transitivity (map (compute N Silu) (tab z (nthZ (n0 N) x))); [|rewrite <- HX, <- tab_nthZ; reflexivity].
  rewrite map_tab. unfold tab3. fold z. apply tab_ext. intros k Hk.
  destruct (split3_range _ _ _ _ Hk ltac:(lia) ltac:(lia) ltac:(lia)) as (P1 & P2 & P3 & R1 & R2 & R3).
  assert (BX : forall l : list (T N), Broadcast.bat N (sh, l) (k / (Broadcast.sH sh * Broadcast.sW sh)) ((k / Broadcast.sW sh) mod Broadcast.sH sh) (k mod Broadcast.sW sh) = nthZ (n0 N) l k).
  { intros l. unfold Broadcast.bat. cbn [fst snd]. rewrite !pick_in by assumption. unfold at3. rewrite idx3_join by lia. reflexivity. }
  assert (SK : nthZ (n0 N) (map (compute N Sigmoid) x) k = compute N Sigmoid (nthZ (n0 N) x k)).
  { rewrite (tab_nthZ (n0 N) x) at 1. rewrite HX, map_tab, nthZ_tab by exact Hk. reflexivity. }
  change (ndiv N (nthZ (n0 N) x k) (nadd N (n1 N) (nexp N (nopp N (nthZ (n0 N) x k))))) with (compute N Silu (nthZ (n0 N) x k)).
  rewrite <- (sigmoid_silu N F E).
  destruct swapped; cbn [combine map option_map BroadcastProofs.combine fold_left Broadcast.bop]; rewrite !BX, SK; [apply (mul_comm N R)|reflexivity].
Qed.
Print Assumptions C38_sigmoid_multiply_is_silu.

Lemma C38_reals : field_laws RealInst.Rnum /\ exp_laws RealInst.Rnum.
Proof.
  split; [exact RealInst.Rnum_field|]. constructor; intros v; unfold nopp; cbn [T n0 n1 nadd nsub nmul nexp RealInst.Rnum] in *.
  - rewrite <- Exp_prop.exp_plus. rewrite (RIneq.Rminus_0_l v), RIneq.Rplus_opp_l. apply Rtrigo_def.exp_0.
  - pose proof (Exp_prop.exp_pos v). Lra.lra.
Qed.

(** The MatMul + Add pattern never applies, on any list of layers. *)
Theorem C38_matmul_add_never_replaced : forall (N : num) (st : pnet N) n p,
  nth_error (registered N) 2 = Some p -> is_pattern N p st n = false.
Proof. intros N st n p E. injection E as <-. apply no_matmul_add. Qed.
Print Assumptions C38_matmul_add_never_replaced.

(** In the network the SiLU replacement goes wrong: 0 input; 1 convolution;
    2 Sigmoid of 1; 3 Multiply(1, 2); 4 convolution of 3.  After the
    replacement, the new activation is fused into layer 1, which keeps its own
    array while its readers look into the array of the Multiply, which nothing
    writes: the output is what the array happened to contain. *)
Definition one_pixel := Broadcast.mkShape 1 1 1.
Definition conv_1x1 := mkConv 1 1 1 1 1 1 1 1 1 1 0 0 0 0.
Definition silu_model (cst : option (Broadcast.tensor Znum)) := listed (of_edges 5 [] [(0,1);(1,2);(1,3);(2,3);(3,4)]%nat)
  [mkLayer Znum (KInput4 Znum 1 1 1) LinearAct; mkLayer Znum (KConv Znum SixLoops conv_1x1 [1] [0]) LinearAct;
   mkLayer Znum (KActivation Znum 1) Sigmoid; mkLayer Znum (KBroadcast Znum Broadcast.BMul [one_pixel; one_pixel] cst one_pixel) LinearAct;
   mkLayer Znum (KConv Znum SixLoops conv_1x1 [1] [0]) LinearAct] false.
Theorem C38_silu_reads_unwritten_array_refuted :
  supported Znum (silu_model None) 0 /\
  forall garbage, optimised_c Znum 0 ex_q garbage (silu_model None) [2] = Some [garbage].
Proof.
  split; [refuted_supported (fun i : nat => i)|]. intros d.
  assert (E : optimised_c Znum 0 ex_q d (silu_model None) [2] = Some [d * 1 + 0]) by (vm_compute; reflexivity).
  rewrite E. assert (E2 : d * 1 + 0 = d :> Z) by (change Z in d; lia). rewrite E2. reflexivity.
Qed.
Print Assumptions C38_silu_reads_unwritten_array_refuted.

(** A Multiply with a constant third factor: the factor is dropped. *)
Theorem C38_silu_constant_refuted :
  supported Znum (silu_model (Some (one_pixel, [3]))) 0 /\
  plain_py Znum 0 ex_q (silu_model None) [2] = Some [-2] /\ optimised_py Znum 0 ex_q (silu_model None) [2] = Some [-2] /\
  plain_py Znum 0 ex_q (silu_model (Some (one_pixel, [3]))) [2] = Some [-6] /\
  optimised_py Znum 0 ex_q (silu_model (Some (one_pixel, [3]))) [2] = Some [-2].
Proof.
  split; [|split; [|split; [|split]]; vm_compute; reflexivity].
  refuted_supported (fun i : nat => i). intros c E. injection E as <-. vm_compute. reflexivity.
Qed.
Print Assumptions C38_silu_constant_refuted.

(** ** C39.  Removing the layer numbered just after [r] and renumbering: the
    numbers keep increasing along the list (hence are pairwise distinct), each
    remaining layer keeps its saved tensor, no entry of the dictionary is left
    without a layer, and nothing else changes. *)
Theorem C39_renumbering : forall (N : num) index (st : pnet N) r,
  nth_error (pn_layers N st) index = Some r -> (1 <= index)%nat -> NoDup (pn_layers N st) ->
  StronglySorted lt (map (pn_idx N st) (pn_layers N st)) ->
  (forall o, In o (pn_layers N st) -> pn_idx N st o <> S (pn_idx N st r)) ->
  (forall k, dget (pn_dict N st) k <> None -> exists o, In o (pn_layers N st) /\ k = pn_idx N st o) ->
  exists st', update_indices N index 1 st = Some st' /\
    pn_layers N st' = pn_layers N st /\ pn_prev N st' = pn_prev N st /\ pn_next N st' = pn_next N st /\
    (forall o, In o (pn_layers N st) ->
       pn_idx N st' o = (if Nat.ltb (pn_idx N st r) (pn_idx N st o) then pn_idx N st o - 1 else pn_idx N st o)%nat /\
       dget (pn_dict N st') (pn_idx N st' o) = dget (pn_dict N st) (pn_idx N st o)) /\
    (forall k, dget (pn_dict N st') k <> None -> exists o, In o (pn_layers N st) /\ k = pn_idx N st' o) /\
    StronglySorted lt (map (pn_idx N st') (pn_layers N st)).
Proof.
  intros N index st r H1 H2 H3 H4 H5 H6.
  destruct (update_indices_spec N index st r H1 H2 H3 H4 H5 H6) as (st' & E & SB & A & B & C).
  exists st'. split; [exact E|]. destruct SB as (S1 & S2 & S3 & _).
  split; [exact S1|]. split; [exact S2|]. split; [exact S3|]. split; [|split; assumption].
  intros o Ho. destruct (A o Ho) as (A1 & A2). split; [exact A1|exact A2].
Qed.
Print Assumptions C39_renumbering.

(** After the whole pass on a model meeting C36's conditions: identifiers
    increasing along the list, links symmetric and inside the list, every saved
    tensor that of a listed layer. *)
Theorem C39_after_the_pass_partial : forall (N : num) (md : model N) inp s,
  supported N md inp -> tri_topo (md_graph N md) = Some s -> StronglySorted lt (order s) -> fusion_safe N md inp ->
  exists st, optimise N (initial N md s) = Done N st /\
    NoDup (map (pn_idx N st) (pn_layers N st)) /\ StronglySorted lt (map (pn_idx N st) (pn_layers N st)) /\
    (forall a b, In a (pn_layers N st) -> In b (pn_layers N st) ->
       count_occ Nat.eq_dec (pn_next N st a) b = count_occ Nat.eq_dec (pn_prev N st b) a) /\
    (forall a b, In a (pn_layers N st) -> In b (pn_next N st a) \/ In b (pn_prev N st a) -> In b (pn_layers N st)) /\
    (forall k, dget (pn_dict N st) k <> None -> exists o, In o (pn_layers N st) /\ k = pn_idx N st o).
Proof.
  intros N md inp s SP HS IDS FS.
  destruct (optimised_code N (n0 N) (fun _ => n0 N) md inp s SP HS IDS FS) as (st & E & PV & _).
  exists st. split; [exact E|]. pose proof (pv_ids N inp st PV) as SI.
  split; [|split; [exact SI|]].
  - clear -SI. induction (map (pn_idx N st) (pn_layers N st)) as [|x l IH]; [constructor|].
    inversion SI as [|? ? A B]; subst. constructor; [|apply IH; exact A].
    intros Hx. rewrite Forall_forall in B. specialize (B x Hx). lia.
  - pose proof (sp_linked N _ inp (pv_supported N inp st PV)) as LK. split; [|split].
    + intros a b Ha Hb. exact (links_symmetric _ LK a b Ha Hb).
    + intros a b Ha Hb. exact (links_closed _ LK a b Ha Hb).
    + exact (pv_keys N inp st PV).
Qed.
Print Assumptions C39_after_the_pass_partial.

(** Hypotheses: C36_example_supported. *)
Example C39_example :
  option_map (fun st => (map (pn_idx Qcnum st) (pn_layers Qcnum st), map (saved_in Qcnum st) (pn_layers Qcnum st), pn_dict Qcnum st))
    (optimised Qcnum fx_model) = Some ([0;1;2;3;4]%nat, [None; Some 0%nat; None; None; None], [(1, 0)]%nat).
Proof. vm_compute. reflexivity. Qed.

(** When tri_topo's order does not follow the identifiers, two layers end up
    with the same one.  0 input; 1 and 2 convolutions of 0; 3 ReLU of 1;
    4 Add(3, 2); visited in the order 0, 2, 1, 3, 4. *)
Definition two_convs := listed (of_edges 5 [] [(0,1);(0,2);(1,3);(3,4);(2,4)]%nat)
  [mkLayer Znum (KInput4 Znum 1 1 1) LinearAct; mkLayer Znum (KConv Znum SixLoops conv_1x1 [1] [0]) LinearAct;
   mkLayer Znum (KConv Znum SixLoops conv_1x1 [2] [1]) LinearAct; mkLayer Znum (KActivation Znum 1) ReLu;
   mkLayer Znum (KBroadcast Znum Broadcast.BAdd [one_pixel; one_pixel] None one_pixel) LinearAct] false.
Theorem C39_duplicate_identifiers_refuted :
  supported Znum two_convs 0 /\ fusion_safe Znum two_convs 0 /\
  option_map (fun st => map (fun n => (n, pn_idx Znum st n)) (pn_layers Znum st)) (optimised Znum two_convs) =
    Some [(0,0); (2,1); (1,1); (4,3)]%nat.
Proof.
  split; [refuted_supported (fun i : nat => i)|]. split; [|vm_compute; reflexivity].
  constructor.
  - intros p n Hp Hn A1 A2 A3 A4 A5. split_nodes Hn; try discriminate A1. injection A4 as <-. split; [congruence|exact I].
  - intros n Hn A1. split_nodes Hn; discriminate.
  - intros p n C H W sc me va bi eps d Hp Hn EK. split_nodes Hn; discriminate EK.
  - intros p n Hp Hn EK. split_nodes Hn; discriminate EK.
  - discriminate.
  - intros p n m Hp Hn Hm A1 A2. split_nodes Hn; try discriminate A1; discriminate A2.
Qed.
Print Assumptions C39_duplicate_identifiers_refuted.

(** ** C57.  The optimiser always ends, on any list of layers. *)
Theorem C57_optimiser_terminates : forall (N : num) (st : pnet N), optimise N st <> OutOfFuel N.
Proof. exact optimise_ends. Qed.
Print Assumptions C57_optimiser_terminates.
(** More iterations than the bound of [optimise] give the same outcome: the
    bound is not what makes it end. *)
Theorem C57_bound_is_enough : forall (N : num) (st : pnet N) fuel,
  (S (length (pn_layers N st)) * S (length (pn_layers N st)) <= fuel)%nat ->
  match_loop N fuel st 0 = optimise N st.
Proof.
  intros N st fuel H. unfold optimise. set (b := (S (length (pn_layers N st)) * S (length (pn_layers N st)))%nat) in *.
  assert (G : forall f st i f', (f <= f')%nat -> match_loop N f st i <> OutOfFuel N -> match_loop N f' st i = match_loop N f st i).
  { clear. induction f as [|f IH]; intros st i f' Hf HO; destruct f' as [|f']; cbn [match_loop] in *; try lia; try reflexivity;
      destruct (nth_error (pn_layers N st) i) as [n|]; try reflexivity; try congruence.
    destruct (try_patterns N (registered N) n st i) as [[st' i']|]; [|reflexivity]. apply IH; [lia|exact HO]. }
  apply G; [exact H|]. exact (optimise_ends N st).
Qed.
Print Assumptions C57_bound_is_enough.
Example C57_example : option_map (fun s => match_loop Znum 3 (initial Znum two_convs s) 0) (tri_topo (md_graph Znum two_convs)) = Some (OutOfFuel Znum).
Proof. vm_compute. reflexivity. Qed.
