(** * C09: the generated inference function never leaves its arrays. *)
From Coq Require Import ZArith List Lia Bool QArith.
Import ListNotations.
From Verif Require Import CMem Tensor Num NumInst Activation Movement MovementProofs Conv Pooling Pad Reduce Resize Graph GraphSpec
  GraphProofs3 GraphProofs4 GraphProofs5 Net NetProofs PropertiesMovement PropertiesGraph PropertiesNet PropertiesNnet LayerKinds LayerKindsProofs ModelProofs
  Bounds BoundsSpec BoundsProofs.
Open Scope Z_scope.

(** Whatever the arithmetic (no law is assumed: floats with rounding, overflow
    and NaN are instances), the activations, the weights and the input: for a
    model whose shapes are consistent ([laid_out], BoundsSpec.v), started from
    arrays of the declared sizes with any contents, every access of the
    inference function is inside its array, and it ends.
    Not covered ([_partial]): the layer classes outside LayerKinds.v, and the
    parameters excluded by [well_sized], some of which do leave their arrays:
    see C09_two_axes_max_network_refuted, C22_wrap_out_of_bounds_refuted,
    C30_two_axes_max_out_of_bounds_refuted and C31_half_pixel_floor_fault_refuted. *)
Theorem C09_inference_stays_inside_partial : forall (N : num) (ninf : T N) (q : Q -> T N) (md : model N) inp,
  laid_out N md inp ->
  exists s, tri_topo (md_graph N md) = Some s /\
  forall m : mem (T N), declared (python_net N ninf q md s) s m ->
  exists m', inference (python_net N ninf q md s) s m = Some m' /\
    forall b, zlen (m' b) = zlen (m b).
Proof.
  intros N ninf q md inp LO.
  pose proof LO as [L1 L2 L3 L4 L5 L6 L7 L8].
  destruct (C02_input_first_and_no_exception (md_graph N md) inp L1 L2 L3 L5 L6) as (s & tl & E & Ho & _).
  exists s. split; [exact E|]. intros m D.
  destruct (model_stays_inside N ninf q md inp s LO m) as (m' & E' & D').
  - apply tri_topo_runnable; auto. exact (single_input_no_constant_expression _ inp L6 L5).
  - rewrite Ho. reflexivity.
  - exact D.
  - exists m'. split; [exact E'|]. intros b. rewrite D', D. reflexivity.
Qed.
Print Assumptions C09_inference_stays_inside_partial.

(** Every model of C08 is covered. *)
Theorem C09_supported_models_are_covered : forall (N : num) (md : model N) inp, supported N md inp -> laid_out N md inp.
Proof.
  intros N md inp SP. constructor; try apply SP.
  intros n Hn HP. pose proof (sp_layers N md inp SP n Hn HP) as (_ & A). unfold lk.
  destruct (lkind N (md_layer N md n)); cbn [well_sized]; try exact A.
  - destruct A as (? & ? & ? & ? & ? & ? & _). auto 8.
  - destruct A as (? & ? & ? & ? & ? & ? & ? & ? & ? & ? & ? & A). repeat (split; [assumption|]). destruct impl; [exact I|exact I|apply A].
  - destruct A as (? & ? & ? & ? & _). auto.
  - destruct A as (? & ? & ? & ? & _). auto.
  - destruct A as (? & ? & A). split; [assumption|]. split; [assumption|]. destruct mode; [exact I|exact I|apply A|apply A].
  - destruct A as (? & ? & ? & ? & A). auto 6.
  - destruct A as (? & ? & ? & ? & ? & _). auto 6.
  - destruct A as (? & ? & ? & ? & ? & ? & Sc). unfold PropertiesResize.same_coord in Sc.
    do 3 (split; [assumption|]). split; [assumption|]. split; [lia|]. split; [lia|]. split; [lia|]. intros E. contradiction.
  - destruct A as (? & _ & ? & ? & ? & ? & ? & ? & Sc). unfold PropertiesResize.same_coord in Sc.
    do 7 (split; [assumption|]). intros E. contradiction.
Qed.
Print Assumptions C09_supported_models_are_covered.

(** A network outside C08, in an arithmetic without laws (integers with a NaN):
    a dilated convolution compiled with the std_gemm variant (which ignores the
    dilation), a max pooling with different top and left pads, a tensor with
    two Flatten readers, an activation without exact meaning. *)
Definition b_conv : conv_params := mkConv 1 4 4 2 3 3 2 2 1 2 0 0 0 0.
Definition b_layers : list (layer NaNnum) :=
  [ mkLayer NaNnum (KInput4 NaNnum 1 4 4) LinearAct;
    mkLayer NaNnum (KConv NaNnum StdGemmNN b_conv (map Some [1;2;3;4;5;6;7;8]) [Some 1; None]) Sigmoid;
    mkLayer NaNnum (KMaxPool NaNnum (mkPool 2 3 3 2 2 2 2 1 0 0 1)) ReLu;
    mkLayer NaNnum (KFlatten NaNnum true 2 2 2) LinearAct;
    mkLayer NaNnum (KFlatten NaNnum false 2 2 2) LinearAct;
    mkLayer NaNnum (KBroadcast NaNnum Broadcast.BAdd [Broadcast.mkShape 1 1 8; Broadcast.mkShape 1 1 8] None (Broadcast.mkShape 1 1 8)) TanH ].
Definition b_model : model NaNnum :=
  mkModel NaNnum (of_edges 6 [] [(0,1);(1,2);(2,3);(2,4);(3,5);(4,5)]%nat)
    (fun n => nth n b_layers (mkLayer NaNnum (KInput NaNnum 0) LinearAct)) true.
Example C09_example : laid_out NaNnum b_model 0.
Proof.
  constructor.
  - apply of_edges_linked. reflexivity.
  - apply (of_edges_acyclic _ _ _ (fun i => i)). reflexivity.
  - apply of_edges_no_repeat. repeat constructor; cbn; intuition congruence.
  - intros n Hn. cbn in Hn; destruct Hn as [<-|[<-|[<-|[<-|[<-|[<-|[]]]]]]];
      (split; [intros E; first [discriminate E|eexists; reflexivity]|intros (w & E); first [discriminate E|reflexivity]]).
  - apply of_edges_constants. reflexivity.
  - apply of_edges_single_input. reflexivity.
  - left. exists 1, 4, 4. split; [reflexivity|lia].
  - intros n Hn Hp. cbn in Hn; destruct Hn as [<-|[<-|[<-|[<-|[<-|[<-|[]]]]]]]; try (exfalso; apply Hp; reflexivity);
      try (repeat split; vm_compute; congruence).
    cbn. split; [discriminate|]. split; [|split; [reflexivity|intros c E; discriminate]].
    unfold Broadcast.accepted_shapes. cbn. repeat split; try (repeat constructor; cbn; lia); try (cbn; tauto).
Qed.
Example C09_example_run : exists s m', tri_topo (md_graph NaNnum b_model) = Some s /\
  inference (python_net NaNnum None (fun _ => None) b_model s) s
    (fun b => repeat None (Z.to_nat (array_size (python_net NaNnum None (fun _ => None) b_model s) s b))) = Some m' /\ zlen (m' NnOut) = 8.
Proof. eexists. eexists. split; [vm_compute; reflexivity|]. split; vm_compute; reflexivity. Qed.

(** C09 does not hold of every model the tool accepts: ReduceMax over two axes
    starts from a cell beyond the end of the arrays (reduce/Reduce.py:135-256,
    [reduce_two]: the first cell is taken at W*f instead of f). *)
Definition two_axes_model : model Znum :=
  mkModel Znum (of_edges 2 [] [(0,1)]%nat)
    (fun n => nth n [mkLayer Znum (KInput4 Znum 1 1 4) LinearAct;
                     mkLayer Znum (KReduce Znum RMax 1 1 4 [1; 2] false) LinearAct] (mkLayer Znum (KInput Znum 0) LinearAct)) false.
Theorem C09_two_axes_max_network_refuted : exists s,
  tri_topo (md_graph Znum two_axes_model) = Some s /\
  exists m, declared (python_net Znum 0 ex_q two_axes_model s) s m /\ inference (python_net Znum 0 ex_q two_axes_model s) s m = None.
Proof.
  eexists. split; [vm_compute; reflexivity|].
  match goal with |- exists m, declared ?net ?s m /\ _ => exists (fun b => repeat 7 (Z.to_nat (array_size net s b))) end.
  split; [|vm_compute; reflexivity].
  intros b. unfold zlen. rewrite repeat_length. rewrite Z2Nat.id; [reflexivity|].
  destruct b as [k|k| | |]; try (vm_compute; congruence); try apply max_list_nonneg.
  cbn [array_size]. destruct (Nat.ltb k _); vm_compute; congruence.
Qed.
Print Assumptions C09_two_axes_max_network_refuted.
