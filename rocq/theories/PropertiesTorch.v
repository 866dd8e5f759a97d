(** * C71: an imported PyTorch program computes what PyTorch computes.
    TorchSpec.v says what PyTorch computes ([runs m x env]: [env] are the tensors
    of a run of [m] on the input [x]); Torch.v models the importer.
    - [well_formed] (TorchSpec.v): distinct names, nodes read earlier nodes,
      every node but the last is read.
    - [shaped m sh] (TorchModel.v): [sh] are the dimensions PyTorch infers.
    - [all_importable m sh] (TorchModel.v, TorchOps.v): every operation has the
      options that the importer handles.
    - [exclusive], [absorbable] (TorchModel.v): relu, clamp and batch_norm are
      merged into the layer of their operand, dropout and flatten are aliases of
      it: nothing else reads that operand, and it is not already activated.
    - [output_ordered] (TorchRun.v): a channels_last program returns images or
      the result of a linear operation.
    - [in_memory] (TorchSpec.v): the elements in the order of the memory format.
    The refuted theorems below show why these conditions are there. *)
From Coq Require Import String.
From Coq Require Import ZArith List Lia Bool Reals Lra QArith Permutation.
Import ListNotations.
From Verif Require Import CMem Tensor Num RealInst Padding Conv Pooling Movement MovementProofs Linear Graph GraphSpec LayerKinds Net NetProofs Import ImportOtherProofs PropertiesImport PropertiesGraph PropertiesNet.
From Verif Require Activation Broadcast.
From Verif Require Import TorchSpec Torch TorchOps TorchOps2 TorchModel TorchRun.
Open Scope string_scope.
Open Scope list_scope.
Open Scope Z_scope.

Lemma load_state impl ninf q m sh : well_formed m -> shaped m sh -> positive_dims (p_shape m) -> all_importable m sh -> exclusive m -> absorbable m ->
  exists st holder reg tip s, inv m sh impl ninf q (p_nodes m) st holder reg tip /\
    let md := mkModel Rnum (graph_of st (seq 0 (ts_count st))) (ts_layer st) (p_channels_last m) in
    load_pytorch impl m = Some (md, s) /\ tri_topo (md_graph Rnum md) = Some s /\ hd O (order s) = O /\ last (order s) O = holder (p_output m).
Proof.
  intros WF SH PI IM EX AB. destruct (inv_start m sh WF SH PI impl ninf q) as (h0 & r0 & t0 & V0).
  destruct (visit_all_ok m sh WF SH PI IM EX AB impl ninf q (p_nodes m) [] [(p_input m, p_shape m)] (first_state m) h0 r0 t0 eq_refl V0) as (st & h & r & t & EV & V).
  { intros k ds [H|[]]. injection H as <- <-. symmetry. apply SH. }
  { intros nm [H|[]]. left. exact H. }
  destruct (scheduled m sh WF impl ninf q st h r t V) as (s & ES & H0 & HL & _). exists st, h, r, t, s. split; [exact V|]. cbv zeta. split; [|split; [exact ES|split; assumption]].
  unfold load_pytorch. rewrite EV. cbn [bind]. rewrite (named_sorted m sh WF impl ninf q st h r t V), ES. reflexivity.
Qed.

(** The import succeeds, and the documented functions of the layers, applied in
    the order of the links, give PyTorch's output. *)
Theorem C71_import_keeps_the_function_partial : forall (impl : conv_impl) (ninf : R) (q : Q -> R) (m : program) (sh : string -> list Z),
  well_formed m -> shaped m sh -> positive_dims (p_shape m) -> all_importable m sh -> exclusive m -> absorbable m -> output_ordered m sh ->
  exists md s, load_pytorch impl m = Some (md, s) /\ tri_topo (md_graph Rnum md) = Some s /\
  forall x env val, zlen x = size_of (p_shape m) -> runs m x env ->
    evaluates (documented_net Rnum ninf q md s) (in_memory m (p_shape m) x) val ->
    md_post Rnum md s (val (last (order s) O)) = in_memory m (dims (env (p_output m))) (vals (env (p_output m))).
Proof.
  intros impl ninf q m sh WF SH PI IM EX AB OO. destruct (load_state impl ninf q m sh WF SH PI IM EX AB) as (st & h & r & t & s & V & EL & ES & H0 & HL).
  eexists _, s. split; [exact EL|]. split; [exact ES|]. intros x env val HX RU EV. eapply (output_value m sh WF SH PI IM EX impl ninf q st h r t V); eassumption.
Qed.
Print Assumptions C71_import_keeps_the_function_partial.

(** The generated C program returns PyTorch's output.  Further conditions: no
    operation reads a tensor twice, and the two paddings of a pooling layer are
    the same (C18). *)
Theorem C71_generated_program_partial : forall (ninf : R) (q : Q -> R) (m : program) (sh : string -> list Z),
  well_formed m -> shaped m sh -> positive_dims (p_shape m) -> all_importable m sh -> exclusive m -> absorbable m -> output_ordered m sh ->
  (forall n, In n (p_nodes m) -> generable (n_op n) /\ NoDup (n_inputs n)) ->
  exists md s, load_pytorch SixLoops m = Some (md, s) /\ tri_topo (md_graph Rnum md) = Some s /\
  forall (mem0 : mem R) x env, declared (python_net Rnum ninf q md s) s mem0 -> zlen x = size_of (p_shape m) -> runs m x env ->
  mem0 NnIn = in_memory m (p_shape m) x ->
  exists mem1, inference (python_net Rnum ninf q md s) s mem0 = Some mem1 /\
    mem1 NnOut = in_memory m (dims (env (p_output m))) (vals (env (p_output m))) /\
    (python_supported Rnum md -> compute_inference (python_net Rnum ninf q md s) s (mem0 NnIn) = Some (mem1 NnOut)).
Proof.
  intros ninf q m sh WF SH PI IM EX AB OO GN. destruct (load_state SixLoops ninf q m sh WF SH PI IM EX AB) as (st & h & r & t & s & V & EL & ES & H0 & HL).
  eexists _, s. split; [exact EL|]. split; [exact ES|]. intros mem0 x env D HX RU EIN.
  pose proof (torch_supported m sh WF PI EX SixLoops ninf q st h r t V eq_refl (fun n Hn => proj1 (GN n Hn)) (fun n Hn => proj2 (GN n Hn))) as SP. cbv zeta in SP.
  destruct (C08_inference_computes_the_network Rnum ninf q _ O SP) as (s' & ES' & HC). rewrite ES in ES'. injection ES' as <-.
  destruct (HC mem0 D) as (val & mem1 & EV & EI & EO & EP). exists mem1. split; [exact EI|]. split; [|intros PS; rewrite (EP PS); reflexivity].
  rewrite EO. rewrite EIN in EV. eapply (output_value m sh WF SH PI IM EX SixLoops ninf q st h r t V); eassumption.
Qed.
Print Assumptions C71_generated_program_partial.

(** PyTorch computes a run for every input. *)
Definition next_tensor (env : string -> tensor) (n : node) (nm : string) : tensor :=
  if String.eqb nm (n_name n) then match apply (n_op n) (map env (n_inputs n)) with Some t => t | None => env nm end else env nm.
Definition run_on (m : program) (x : list R) : string -> tensor := fold_left next_tensor (p_nodes m) (fun _ => mkT (p_shape m) x).
Lemma run_on_runs m sh x : well_formed m -> shaped m sh -> runs m x (run_on m x).
Proof.
  intros WF SH. unfold run_on.
  assert (G : forall before after, p_nodes m = before ++ after -> let e := fold_left next_tensor before (fun _ => mkT (p_shape m) x) in
    e (p_input m) = mkT (p_shape m) x /\ (forall nm, In nm (names m before) -> dims (e nm) = sh nm) /\
    (forall n, In n before -> apply (n_op n) (map e (n_inputs n)) = Some (e (n_name n)))).
  { intros before. induction before as [|n before IH] using rev_ind; intros after E; cbv zeta.
    - split; [reflexivity|]. split; [|intros n []]. intros nm [<-|[]]. cbn. symmetry. apply SH.
    - rewrite <- app_assoc in E. destruct (IH _ E) as (H0 & HD & HA). cbn [app] in E. rewrite fold_left_app. cbn [fold_left].
      set (e := fold_left next_tensor before (fun _ => mkT (p_shape m) x)) in *. pose proof (fresh m WF _ _ _ E) as NI. pose proof (wf_order _ WF _ _ _ E) as (_ & INC).
      assert (K : forall nm, In nm (names m before) -> next_tensor e n nm = e nm).
      { intros nm Hnm. unfold next_tensor. destruct (String.eqb_spec nm (n_name n)) as [->|]; [contradiction|reflexivity]. }
      assert (KM : forall nms, incl nms (names m before) -> map (next_tensor e n) nms = map e nms) by (intros nms HI; apply map_ext_in; intros nm Hnm; apply K; apply HI; exact Hnm).
      assert (Hn : In n (p_nodes m)) by (rewrite E; apply in_or_app; right; left; reflexivity).
      assert (AP : apply (n_op n) (map e (n_inputs n)) = Some (next_tensor e n (n_name n)) /\ dims (next_tensor e n (n_name n)) = sh (n_name n)).
      { unfold next_tensor. rewrite String.eqb_refl. unfold apply. assert (ED : map dims (map e (n_inputs n)) = map sh (n_inputs n)) by (rewrite map_map; apply map_ext_in; intros nm Hnm; apply HD; apply INC; exact Hnm).
        rewrite ED, (proj2 SH n Hn). cbn [bind]. split; reflexivity. }
      split; [rewrite K by (left; reflexivity); exact H0|]. split.
      + intros nm Hnm. rewrite names_snoc in Hnm. apply in_app_or in Hnm. destruct Hnm as [Hnm|[<-|[]]]; [rewrite K by exact Hnm; apply HD; exact Hnm|apply AP].
      + intros k Hk. apply in_app_or in Hk. destruct Hk as [Hk|[<-|[]]].
        * destruct (in_split _ _ Hk) as (b & a & EB). assert (E1 : p_nodes m = b ++ k :: (a ++ n :: after)) by (rewrite E, EB, <- app_assoc; reflexivity).
          rewrite KM, K by (first [right; apply in_map; exact Hk|intros nm Hnm; apply (proj2 (wf_order _ WF _ _ _ E1)) in Hnm; destruct Hnm as [Hnm|Hnm]; [left; exact Hnm|right; rewrite EB, map_app; apply in_or_app; left; exact Hnm]]).
          apply HA. exact Hk.
        * rewrite KM by exact INC. apply AP. }
  destruct (G (p_nodes m) [] ltac:(rewrite app_nil_r; reflexivity)) as (H0 & _ & HA). split; assumption.
Qed.
Theorem C71_runs_exist : forall m sh x, well_formed m -> shaped m sh -> exists env, runs m x env.
Proof. intros m sh x WF SH. exists (run_on m x). exact (run_on_runs m sh x WF SH). Qed.
Print Assumptions C71_runs_exist.


(** ** Example: a residual network.  The example input has one channel: its
    memory format counts as channels_last. *)
Definition ex71_bn : op := BatchNorm (Some [1; 1]%R) (Some [0; 0]%R) [0; 0]%R [1; 1]%R 0%R.
Definition ex71 : program := mkProgram "x" [1; 4; 4] true [
  mkNode "c1" (Conv2d 2 1 3 3 (repeat 1%R 18) (Some [1; 2]%R) 1 1 (Pads 1 1) 1 1 1) ["x"] 5;
  mkNode "bn1" ex71_bn ["c1"] 9;
  mkNode "r1" Relu ["bn1"] 1;
  mkNode "c2" (Conv2d 2 2 1 1 (repeat 2%R 4) None 1 1 ValidString 1 1 1) ["r1"] 5;
  mkNode "bn2" ex71_bn ["c2"] 9;
  mkNode "add" (Add 1%R) ["r1"; "bn2"] 2;
  mkNode "r2" (Clamp (Some 0%R) (Some 6%R)) ["add"] 3;
  mkNode "max" (MaxPool2d 2 2 2 2 0 0 1 1 false) ["r2"] 3;
  mkNode "drop" Dropout ["max"] 3;
  mkNode "max2" (MaxPool2d 3 3 1 1 0 0 1 1 false) ["r2"] 3;
  mkNode "cat" (Cat 1) ["drop"; "max2"] 2;
  mkNode "avg" (AdaptiveAvgPool2d 1 1) ["cat"] 2;
  mkNode "fl" Flatten ["avg"] 2;
  mkNode "fc" (Linear 4 3 (repeat 1%R 12) (Some [1; 2; 3]%R)) ["fl"] 3].
Definition ex71_sh (nm : string) : list Z :=
  if String.eqb nm "x" then [1; 4; 4] else if String.eqb nm "max" then [2; 2; 2] else if String.eqb nm "drop" then [2; 2; 2] else
  if String.eqb nm "max2" then [2; 2; 2] else if String.eqb nm "cat" then [4; 2; 2] else if String.eqb nm "avg" then [4; 1; 1] else
  if String.eqb nm "fl" then [4] else if String.eqb nm "fc" then [3] else [2; 4; 4].
Ltac each_node H := cbn in H; repeat (destruct H as [<-|H]; [|]); [..|destruct H].
Example C71_example :
  well_formed ex71 /\ shaped ex71 ex71_sh /\ positive_dims (p_shape ex71) /\ all_importable ex71 ex71_sh /\ exclusive ex71 /\ absorbable ex71 /\
  output_ordered ex71 ex71_sh /\ (forall n, In n (p_nodes ex71) -> generable (n_op n) /\ NoDup (n_inputs n)).
Proof.
  assert (ND : forall a b : string, a <> b -> NoDup [a; b]).
  { intros a b H. constructor; [intros [E|[]]; congruence|]. constructor; [intros []|constructor]. }
  assert (N1 : forall a : string, NoDup [a]) by (intros a; constructor; [intros []|constructor]).
  assert (AT : forall k n, nth_error (p_nodes ex71) k = Some n -> In n (p_nodes ex71)) by (intros k n H; eapply nth_error_In; exact H).
  split; [|split; [|split; [|split; [|split; [|split; [|split]]]]]].
  - constructor.
    + repeat (constructor; [cbn; intuition discriminate|]). constructor.
    + intros before n after E. do 14 (destruct before as [|? before]; [injection E as <- _; split; [discriminate|intros nm H; cbn in H; cbn; tauto]|injection E as <- E]). destruct before; discriminate.
    + intros nm Hnm NE. unfold p_output in NE. cbn in NE.
      assert (R : exists k n, nth_error (p_nodes ex71) k = Some n /\ In nm (n_inputs n)).
      { each_node Hnm; [exists 0%nat|exists 1%nat|exists 2%nat|exists 3%nat|exists 4%nat|exists 5%nat|exists 6%nat|exists 7%nat|exists 8%nat|exists 10%nat|exists 10%nat|exists 11%nat|exists 12%nat|exists 13%nat|congruence];
          (eexists; split; [reflexivity|cbn; auto]). }
      destruct R as (k & n & HN & HI). exists n. split; [eapply nth_error_In; exact HN|exact HI].
    + discriminate.
  - split; [reflexivity|]. intros n Hn. each_node Hn; reflexivity.
  - repeat constructor.
  - intros n Hn. each_node Hn; (split; [cbn; intuition lia|]); cbn [n_op n_inputs map]; try exact I.
    + cbn. repeat split; try lia; discriminate.
    + exists 2, 4, 4, [1; 1]%R, [0; 0]%R. repeat split.
    + cbn. repeat split; try lia; discriminate.
    + exists 2, 4, 4, [1; 1]%R, [0; 0]%R. repeat split.
    + split; [reflexivity|]. repeat constructor.
    + exists 0%R, 6%R. repeat split. lra.
    + cbn. repeat split; lia.
    + cbn. repeat split; lia.
    + split; [lia|]. split; [cbn; lia|]. repeat constructor.
    + repeat split. exists 4, 2. reflexivity.
    + split; [lia|]. split; [reflexivity|]. split; [reflexivity|]. exists [1; 2; 3]%R. auto.
  - intros n n' a Hn Hn' HP Ha Ha'. each_node Hn; try discriminate HP; (destruct Ha as [<-|[]]); each_node Hn'; try reflexivity; cbn in Ha'; intuition discriminate.
  - intros n a Hn HA Ha. each_node Hn; try discriminate HA; (destruct Ha as [<-|[]]).
    + eexists. split; [apply (cf_here passes ex71 (nth 0 (p_nodes ex71) (mkNode "" Dropout [] 0))); [apply (AT 0%nat)|]; reflexivity|reflexivity].
    + eexists. split; [apply (cf_here passes ex71 (nth 1 (p_nodes ex71) (mkNode "" Dropout [] 0))); [apply (AT 1%nat)|]; reflexivity|reflexivity].
    + eexists. split; [apply (cf_here passes ex71 (nth 3 (p_nodes ex71) (mkNode "" Dropout [] 0))); [apply (AT 3%nat)|]; reflexivity|reflexivity].
    + eexists. split; [apply (cf_here passes ex71 (nth 5 (p_nodes ex71) (mkNode "" Dropout [] 0))); [apply (AT 5%nat)|]; reflexivity|reflexivity].
  - intros _. eexists. split; [apply (cf_here in_place ex71 (nth 13 (p_nodes ex71) (mkNode "" Dropout [] 0))); [apply (AT 13%nat)|]; reflexivity|]. right. cbn. eauto.
  - intros n Hn. each_node Hn; (split; [cbn; auto|]); first [apply N1|apply ND; discriminate].
Qed.
