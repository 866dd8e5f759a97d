(** * Property C70: programs generated in channels_last order
    (CodeGenerator(..., gen_data_format="channels_last")).
    [hwc_net md impl s] (HwcNet.v): the program; [impl n] is the implementation
    selected for layer n.  [documented_net], [evaluates], [declared], [inference],
    [md_post]: as in PropertiesNet.v; the documented network does not depend on
    gen_data_format.  [in_channels_last md impl shape] (HwcNet.v): the layers and
    selections for which the channels_last code is meant. *)
From Coq Require Import ZArith List Lia Bool QArith QArith.Qcanon.
Import ListNotations.
From Verif Require Import CMem Tensor Num NumInst Activation Movement Conv ConvHWC Pooling
  Graph GraphSpec GraphProofs3 GraphProofs4 Net NetProofs PropertiesMovement PropertiesPooling PropertiesGraph LayerKinds LayerKindsProofs ModelProofs PropertiesNet HwcNet HwcLemmas HwcProofs.
From Verif Require Broadcast.
Open Scope Z_scope.

(** The last layer has no reader. *)
Lemma last_unread (N : num) (ninf : T N) (q : Q -> T N) (md : model N) inp s : supported N md inp -> tri_topo (md_graph N md) = Some s ->
  next_layer (md_graph N md) (last (order s) O) = [].
Proof.
  intros SP HS. pose proof (IO N ninf q md inp s SP HS) as I. pose proof (last_in N ninf q md inp s SP HS) as HL.
  destruct (next_layer (md_graph N md) (last (order s) O)) as [|c l] eqn:E; [reflexivity|exfalso].
  assert (Hc : In c (next_layer (md_graph N md) (last (order s) O))) by (rewrite E; left; reflexivity).
  assert (Hd : In (last (order s) O) (dnn (md_graph N md))) by (apply I; exact HL).
  assert (Cd : In c (dnn (md_graph N md))).
  { eapply (links_closed (md_graph N md) (sp_linked N md inp SP)); [exact Hd|]. left. exact Hc. }
  assert (Hp : In (last (order s) O) (previous_layer (md_graph N md) c)).
  { apply (GraphProofs.linked_In (md_graph N md) _ c (sp_linked N md inp SP)); assumption. }
  pose proof (supported_runnable N md inp s SP HS) as RN.
  apply I in Cd. destruct (in_split _ _ Cd) as (l1 & l2 & EO).
  pose proof (rn_topo _ s RN l1 c l2 EO _ Hp) as TP.
  assert (ND : NoDup (order s)) by (eapply Permutation.Permutation_NoDup; [exact (rn_perm _ s RN)|apply (ids_distinct _ (sp_linked N md inp SP))]).
  assert (HL2 : In (last (order s) O) (c :: l2)).
  { rewrite EO. destruct (exists_last (l := c :: l2)) as (l' & a & Ea); [discriminate|]. rewrite Ea, app_assoc, last_last. apply in_or_app. right. left. reflexivity. }
  rewrite EO in ND. clear - ND TP HL2. set (a0 := last (order s) O) in *. clearbody a0. induction l1 as [|a l1 IH]; [destruct TP|]. cbn in ND. inversion ND; subst.
  destruct TP as [->|TP]; [|apply IH; assumption]. apply H1. apply in_or_app. right. exact HL2.
Qed.

(** ** C70.  The program generated in channels_last order computes the documented
    network, like the one generated in channels_first order, and agrees with the
    Python inference. *)
Theorem C70_channels_last_program_partial : forall (N : num) (ninf : T N) (q : Q -> T N) (half : T N) (md : model N) inp impl shape,
  field_laws N -> nadd N half half = n1 N ->
  supported N md inp -> in_channels_last N md impl shape ->
  exists s, tri_topo (md_graph N md) = Some s /\
  forall (m : mem (T N)) val,
    declared (hwc_net N ninf q half md impl s) s m ->
    evaluates (documented_net N ninf q md s) (m NnIn) val ->
    (* what a channels_last maximum pooling reads is above its initial value *)
    (forall n P p v, In n (dnn (md_graph N md)) -> impl n = PoolLast -> lk N md n = KMaxPool N P ->
       In p (previous_layer (md_graph N md) n) -> In v (val p) -> nlt N ninf v = true) ->
    exists m', inference (hwc_net N ninf q half md impl s) s m = Some m' /\
      m' NnOut = md_post N md s (val (last (order s) O)) /\
      (* the channels_first program *)
      (forall m1 : mem (T N), declared (python_net N ninf q md s) s m1 -> m1 NnIn = m NnIn ->
         exists m2, inference (python_net N ninf q md s) s m1 = Some m2 /\ m2 NnOut = m' NnOut) /\
      (python_supported N md -> compute_inference (python_net N ninf q md s) s (m NnIn) = Some (m' NnOut)).
Proof.
  intros N ninf q half md inp impl shape FL HF SP CL.
  destruct (C02_input_first_and_no_exception (md_graph N md) inp) as (s & tl & HS & _); try apply SP.
  exists s. split; [exact HS|]. intros m val D Hv HM.
  pose proof (supported_runnable N md inp s SP HS) as RN. pose proof (hd_is_input N md inp s SP HS) as HH.
  destruct (hwc_inference_ok N ninf q half md inp s impl shape FL HF SP CL RN HH m val) as (m' & E & EO); auto.
  { apply (last_unread N ninf q md inp s SP HS). }
  exists m'. split; [exact E|]. split; [exact EO|]. split.
  - intros m1 D1 E1. destruct (model_inference_ok N ninf q md inp s SP HS m1 val D1) as (m2 & E2 & EO2 & _).
    { rewrite E1. exact Hv. }
    exists m2. split; [exact E2|]. congruence.
  - intros PS. rewrite EO. apply (model_python_ok N ninf q md inp s SP HS); auto.
    rewrite (D NnIn). unfold array_size. rewrite HH. reflexivity.
Qed.
Print Assumptions C70_channels_last_program_partial.

(** 0 input 2x4x4; 1 direct_block convolution 3x3 (Winograd) + ReLU; 2 depth-wise
    convolution 1x1 reading 1; 3 Add(1,2); 4 channels_last maximum pooling 2x2;
    5 Dense 2->2. *)
Definition hw_graph := of_edges 6 [] [(0,1);(1,2);(1,3);(2,3);(3,4);(4,5)]%nat.
Definition hz (k : Z) : Qc := Q2Qc (inject_Z k).
Definition hw_conv1 := mkConv 2 4 4 2 2 2 3 3 1 1 0 0 0 0.
Definition hw_conv2 := mkConv 2 2 2 2 2 2 1 1 1 1 0 0 0 0.
Definition hw_dw : list Qc := map hz [3; -1].
Definition hw_w1 : list Qc := map hz (tab 36 (fun k => k mod 5 - 1)).
Definition hw_pool := mkPool 2 2 2 1 1 2 2 0 0 0 0.
Definition hw_layer (n : nat) : layer Qcnum :=
  match n with
  | 0%nat => mkLayer Qcnum (KInput4 Qcnum 2 4 4) LinearAct
  | 1%nat => mkLayer Qcnum (KConv Qcnum SixLoops hw_conv1 hw_w1 (map hz [1; 100])) ReLu
  | 2%nat => mkLayer Qcnum (KConv Qcnum SixLoops hw_conv2 (diagonal Qcnum hw_conv2 hw_dw) (map hz [0; 5])) LinearAct
  | 3%nat => mkLayer Qcnum (KBroadcast Qcnum Broadcast.BAdd [sh222; sh222] None sh222) LinearAct
  | 4%nat => mkLayer Qcnum (KMaxPool Qcnum hw_pool) LinearAct
  | _ => mkLayer Qcnum (KDense Qcnum 2 2 (map hz [1; 2; 3; 4]) (map hz [0; 1])) LinearAct
  end.
Definition hw_model := mkModel Qcnum hw_graph hw_layer false.
Definition hw_impl (n : nat) : himpl Qc :=
  match n with 1%nat => DirectBlock | 2%nat => DepthwiseBlock hw_dw | 4%nat => PoolLast | _ => Unchanged end.
Definition hw_shape (n : nat) : option (Z * Z * Z) :=
  match n with 0%nat => Some (2, 4, 4) | 4%nat => Some (2, 1, 1) | 5%nat => None | _ => Some (2, 2, 2) end.

Lemma Qc_zero : zero_product_law Qcnum.
Proof. intros s y. rewrite (mul_0_l Qcnum (fl_ring _ Qcnum_field)), (add_0_r Qcnum (fl_ring _ Qcnum_field)). reflexivity. Qed.

Example C70_example_hypotheses :
  field_laws Qcnum /\ nadd Qcnum (Q2Qc (1 # 2)) (Q2Qc (1 # 2)) = n1 Qcnum /\
  supported Qcnum hw_model 0 /\ in_channels_last Qcnum hw_model hw_impl hw_shape /\ python_supported Qcnum hw_model.
Proof.
  pose proof Qc_zero as ZZ. pose proof (mul_comm Qcnum (fl_ring _ Qcnum_field)) as ZC.
  split; [exact Qcnum_field|]. split; [apply Qc_is_canon; reflexivity|].
  split; [constructor|split; [constructor|]].
  - apply of_edges_linked. reflexivity.
  - apply (of_edges_acyclic _ _ _ (fun i => nth i [0;1;2;3;4;5]%nat O)). reflexivity.
  - apply of_edges_no_repeat. repeat constructor; cbn; intuition congruence.
  - intros n Hn. cbn in Hn; destruct Hn as [<-|[<-|[<-|[<-|[<-|[<-|[]]]]]]]; (split; [intros E; discriminate E|intros (w & E); discriminate E]).
  - apply of_edges_constants. reflexivity.
  - apply of_edges_single_input. reflexivity.
  - left. exists 2, 4, 4. split; [reflexivity|lia].
  - intros n Hn Hp. cbn in Hn; destruct Hn as [<-|[<-|[<-|[<-|[<-|[<-|[]]]]]]]; try (exfalso; apply Hp; reflexivity);
      (split; [left; exact I|]); repeat split; try (vm_compute; congruence); try assumption.
    all: try (cbn; repeat constructor; vm_compute; congruence).
    all: try (cbn; tauto).
    all: try (repeat constructor; cbn; tauto).
    all: try (repeat constructor; vm_compute; intuition congruence).
  - intros n p cl C H W Hn EK EP. cbn in Hn; destruct Hn as [<-|[<-|[<-|[<-|[<-|[<-|[]]]]]]]; discriminate.
  - intros n C H W Hn E. cbn in Hn; destruct Hn as [<-|[<-|[<-|[<-|[<-|[<-|[]]]]]]]; try discriminate E; injection E as <- <- <-; cbn; lia.
  - intros n Hn. cbn in Hn; destruct Hn as [<-|[<-|[<-|[<-|[<-|[<-|[]]]]]]]; cbv zeta.
    + reflexivity.
    + exists hw_conv1, hw_w1, (map hz [1; 100]). split; [reflexivity|]. split; [intros p [<-|[]]; reflexivity|]. cbn. repeat split; reflexivity || lia.
    + exists hw_conv2, (map hz [0; 5]). split; [reflexivity|]. split; [intros p [<-|[]]; reflexivity|]. cbn. repeat split; reflexivity.
    + right. split; [reflexivity|]. split; [repeat constructor; left; split; reflexivity|]. intros t E. discriminate E.
    + split; [reflexivity|]. exists hw_pool. split; [intros p [<-|[]]; reflexivity|]. split; [reflexivity|].
      split; [unfold pool_accepts; cbn; lia|]. left. reflexivity.
    + split; [exact I|]. constructor; [right; reflexivity|constructor].
  - intros n Hn E. cbn in Hn; destruct Hn as [<-|[<-|[<-|[<-|[<-|[<-|[]]]]]]]; try discriminate E. left. reflexivity.
  - split.
    + intros n Hn. cbn in Hn; destruct Hn as [<-|[<-|[<-|[<-|[<-|[<-|[]]]]]]]; try exact I; try (split; [exact ZC|reflexivity]).
      * cbn. split; [discriminate|]. split; [intros [E|E]; discriminate E|]. split; [intros _; right; reflexivity|]. split; [intros E; congruence|].
        intros _ E. discriminate E.
      * cbn. repeat split; lia.
    + intros E. discriminate E.
Qed.
Definition hw_schedule : schedule := match tri_topo hw_graph with Some s => s | None => mkSchedule [] [] [] 0 end.
Definition hw_net := hwc_net Qcnum (hz (-100000)) Q2Qc (Q2Qc (1 # 2)) hw_model hw_impl hw_schedule.
Definition hw_memory (net : network Qc) (x : list Qc) : mem Qc := fun b =>
  match b with NnIn => x | _ => repeat (hz 7) (Z.to_nat (array_size net hw_schedule b)) end.
Example C70_example :
  tri_topo hw_graph = Some hw_schedule /\
  option_map (fun m : mem Qc => map this (m NnOut)) (inference hw_net hw_schedule (hw_memory hw_net (map hz (ramp 32)))) = Some [1155; 2301]%Q /\
  option_map (map this) (compute_inference (python_net Qcnum (hz (-100000)) Q2Qc hw_model hw_schedule) hw_schedule (map hz (ramp 32))) = Some [1155; 2301]%Q.
Proof. repeat split; vm_compute; reflexivity. Qed.

(** ** The conditions of [in_channels_last] are not checked by the tool: outside them
    gen_data_format="channels_last" silently changes the result.  Each model below is
    supported (the channels_first program and the Python inference compute it). *)
Definition line (k : nat) := of_edges k [] (map (fun i => (i, S i)) (seq 0 (k - 1))).
Definition run_both (md : model Znum) (impl : nat -> himpl Z) (x : list Z) : option (list Z) * option (list Z) :=
  match tri_topo (md_graph Znum md) with
  | None => (None, None)
  | Some s =>
      let net := hwc_net Znum (-100000 : T Znum) Qnum (0 : T Znum) md impl s in
      let m := (fun b => match b with NnIn => x | _ => repeat 7 (Z.to_nat (array_size net s b)) end) : mem Z in
      (option_map (fun m : mem Z => m NnOut) (inference net s m), compute_inference (python_net Znum (-100000 : T Znum) Qnum md s) s x)
  end.
Definition id_conv (C H W : Z) : layer Znum :=
  mkLayer Znum (KConv Znum SixLoops (mkConv C H W C H W 1 1 1 1 0 0 0 0) (tab (C * C) (fun k => if k / C =? k mod C then 1 else 0)) (repeat 0 (Z.to_nat C))) LinearAct.
Definition direct_at (k n : nat) : himpl Z := if Nat.eqb n k then DirectBlock else Unchanged.

Ltac line_supported n0 :=
  pose proof Znum_zero as ZZ; pose proof Znum_comm as ZC; constructor;
  [ apply of_edges_linked; reflexivity
  | apply (of_edges_acyclic _ _ _ (fun i => i)); reflexivity
  | apply of_edges_no_repeat; repeat constructor; cbn; intuition congruence
  | intros n Hn; cbn in Hn; repeat destruct Hn as [<-|Hn]; try destruct Hn;
      (split; [intros E; discriminate E|intros (w & E); discriminate E])
  | apply of_edges_constants; reflexivity
  | apply of_edges_single_input; reflexivity
  | left; eexists _, _, _; split; [reflexivity|lia]
  | intros n Hn Hp; cbn in Hn; repeat destruct Hn as [<-|Hn]; try destruct Hn; try (exfalso; apply Hp; reflexivity);
      (split; [left; exact I|]); repeat split; try (vm_compute; congruence); try assumption
  | intros n p cl C H W Hn EK EP; cbn in Hn; repeat destruct Hn as [<-|Hn]; try destruct Hn; try discriminate EK;
      injection EP as <-; reflexivity ].

(** 1. A fully connected layer right after an image (a flatten of a PyTorch model is
    imported as no layer at all, a Flatten of an ONNX model emits no code). *)
Definition dense_model := mkModel Znum (line 3) (fun n => match n with
  | 0%nat => mkLayer Znum (KInput4 Znum 2 1 2) LinearAct
  | 1%nat => id_conv 2 1 2
  | _ => mkLayer Znum (KDense Znum 4 1 [1; 10; 100; 1000] [0]) LinearAct end) false.
Theorem C70_dense_after_image_refuted :
  supported Znum dense_model 0 /\ run_both dense_model (direct_at 1) [1; 2; 3; 4] = (Some [4231], Some [4321]).
Proof. split; [line_supported 3%nat|vm_compute; reflexivity]. Qed.
Print Assumptions C70_dense_after_image_refuted.

(** 2. The Flatten layer of a Keras model reorders the image once more. *)
Definition flatten_model := mkModel Znum (line 4) (fun n => match n with
  | 0%nat => mkLayer Znum (KInput4 Znum 2 1 3) LinearAct
  | 1%nat => id_conv 2 1 3
  | 2%nat => mkLayer Znum (KFlatten Znum true 2 1 3) LinearAct
  | _ => mkLayer Znum (KDense Znum 6 1 [1; 10; 100; 1000; 10000; 100000] [0]) LinearAct end) true.
Theorem C70_keras_flatten_refuted :
  supported Znum flatten_model 0 /\ run_both flatten_model (direct_at 1) [1; 2; 3; 4; 5; 6] = (Some [635241], Some [654321]).
Proof. split; [line_supported 4%nat|vm_compute; reflexivity]. Qed.
Print Assumptions C70_keras_flatten_refuted.

(** 3. gen_data_format alone: the default convolution reads the reordered image as if
    it were channels_first. *)
Definition conv_model := mkModel Znum (line 2) (fun n => match n with
  | 0%nat => mkLayer Znum (KInput4 Znum 2 1 2) LinearAct
  | _ => mkLayer Znum (KConv Znum SixLoops (mkConv 2 1 2 1 1 2 1 1 1 1 0 0 0 0) [1; 10] [0]) LinearAct end) false.
Theorem C70_default_convolution_refuted :
  supported Znum conv_model 0 /\
  run_both conv_model (fun _ => Unchanged) [1; 2; 3; 4] = (Some [21; 43], Some [31; 42]).
Proof. split; [line_supported 2%nat|vm_compute; reflexivity]. Qed.
Print Assumptions C70_default_convolution_refuted.

(** 4. A batch normalisation that was not fused, a pooling left to its default
    implementation. *)
Definition bn_model := mkModel Znum (line 3) (fun n => match n with
  | 0%nat => mkLayer Znum (KInput4 Znum 2 1 2) LinearAct
  | 1%nat => id_conv 2 1 2
  | _ => mkLayer Znum (KBatchNorm Znum 2 1 2 [1; 10] [0; 0] [1; 1] [0; 0] 0) LinearAct end) false.
Definition pool_model := mkModel Znum (line 3) (fun n => match n with
  | 0%nat => mkLayer Znum (KInput4 Znum 2 2 2) LinearAct
  | 1%nat => id_conv 2 2 2
  | _ => mkLayer Znum (KMaxPool Znum (mkPool 2 2 2 1 1 2 2 0 0 0 0)) LinearAct end) false.
Theorem C70_other_layers_refuted :
  supported Znum bn_model 0 /\ supported Znum pool_model 0 /\
  run_both bn_model (direct_at 1) [1; 2; 3; 4] = (Some [1; 20; 3; 40], Some [1; 2; 30; 40]) /\
  run_both pool_model (direct_at 1) [1; 2; 3; 4; 5; 6; 7; 8] = (Some [6; 8], Some [4; 8]).
Proof. split; [line_supported 3%nat|]. split; [line_supported 3%nat|]. vm_compute. split; reflexivity. Qed.
Print Assumptions C70_other_layers_refuted.
