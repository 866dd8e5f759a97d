(** * Properties C08, C10, C47: the whole inference.
    [model] (LayerKinds.v): a layer graph, the layers, the data format.
    [inference net s] (Net.v): the body of the generated C function [inference]
    on a memory; [None] is an access outside an array.
    [compute_inference net s]: NN.compute_inference for one input; [None] is an
    exception.
    [declared net s m]: every array of [m] has the number of cells declared in
    the generated header; the contents are arbitrary.
    [evaluates net x val]: [val] gives each layer the documented function of the
    layer applied to the values of the layers it reads, the input layer the
    network input [x] converted to channels first.
    [md_post]: conversion of the last tensor back to the model's data format. *)
From Coq Require Import ZArith List Lia Bool QArith.
Import ListNotations.
From Verif Require Import CMem Tensor Num NumInst Activation Movement Conv Pooling Pad Reduce Resize
  Graph GraphSpec GraphProofs3 GraphProofs4 Net NetProofs PropertiesMovement PropertiesGraph LayerKinds LayerKindsProofs ModelProofs.
From Verif Require Broadcast BroadcastProofs.
Open Scope Z_scope.

(** ** C08.  [python_net] is the program: emitted C code and Python forward
    functions; [documented_net] only replaces the forward functions by the
    documented functions of the layers. *)
Theorem C08_inference_computes_the_network : forall (N : num) (ninf : T N) (q : Q -> T N) (md : model N) inp,
  supported N md inp ->
  exists s, tri_topo (md_graph N md) = Some s /\
  forall m : mem (T N), declared (python_net N ninf q md s) s m ->
  exists val m',
    evaluates (documented_net N ninf q md s) (m NnIn) val /\
    inference (python_net N ninf q md s) s m = Some m' /\
    m' NnOut = md_post N md s (val (last (order s) O)) /\
    (python_supported N md -> compute_inference (python_net N ninf q md s) s (m NnIn) = Some (m' NnOut)).
Proof.
  intros N ninf q md inp SP.
  destruct (C02_input_first_and_no_exception (md_graph N md) inp) as (s & tl & HS & _); try apply SP.
  exists s. split; [exact HS|]. intros m D.
  destruct (model_values_exist N ninf q md inp s SP HS (m NnIn)) as (val & Hv).
  destruct (model_inference_ok N ninf q md inp s SP HS m val D Hv) as (m' & E & EO & _).
  exists val, m'. split; [exact Hv|]. split; [exact E|]. split; [exact EO|].
  intros PS. rewrite EO. apply (model_python_ok N ninf q md inp s SP HS); auto.
  rewrite (D NnIn). unfold array_size. rewrite (hd_is_input N md inp s SP HS). reflexivity.
Qed.
Print Assumptions C08_inference_computes_the_network.

(** The documented value of a model is unique. *)
Theorem C08_value_unique : forall (N : num) (ninf : T N) (q : Q -> T N) (md : model N) inp s x v1 v2,
  supported N md inp -> tri_topo (md_graph N md) = Some s ->
  evaluates (documented_net N ninf q md s) x v1 -> evaluates (documented_net N ninf q md s) x v2 ->
  forall n, In n (dnn (md_graph N md)) -> v1 n = v2 n.
Proof.
  intros N ninf q md inp s x v1 v2 SP HS E1 E2.
  apply (evaluates_unique (documented_net N ninf q md s) s) with (x := x); auto.
  exact (supported_runnable N md inp s SP HS).
Qed.
Print Assumptions C08_value_unique.

(** A channels_last model with two branches, a constant operand, two convolution
    algorithms, a saved tensor and a Flatten.
    0 input 1x3x3 (stored 3x3x1); 1 six-loop conv 2 filters 2x2 + ReLU; 2 std gemm conv
    2 filters 1x1 reading 1; 3 constant; 4 Add(1,2,3); 5 Flatten; 6 Dense 8->2. *)
Definition ex_graph := of_edges 7 [3%nat] [(0,1);(1,2);(1,4);(2,4);(3,4);(4,5);(5,6)]%nat.
Definition ex_conv1 := mkConv 1 3 3 2 2 2 2 2 1 1 0 0 0 0.
Definition ex_conv2 := mkConv 2 2 2 2 2 2 1 1 1 1 0 0 0 0.
Definition sh222 := Broadcast.mkShape 2 2 2.
Definition ex_layer (n : nat) : layer Znum :=
  match n with
  | 0%nat => mkLayer Znum (KInput4 Znum 1 3 3) LinearAct
  | 1%nat => mkLayer Znum (KConv Znum SixLoops ex_conv1 [1;2;3;4;-1;0;0;1] [1;0]) ReLu
  | 2%nat => mkLayer Znum (KConv Znum StdGemmNN ex_conv2 [1;1;-1;1] [0;5]) LinearAct
  | 3%nat => mkLayer Znum (KConstant Znum [10]) LinearAct
  | 4%nat => mkLayer Znum (KBroadcast Znum Broadcast.BAdd [sh222; sh222; Broadcast.mkShape 1 1 1] None sh222) LinearAct
  | 5%nat => mkLayer Znum (KFlatten Znum true 2 2 2) LinearAct
  | _ => mkLayer Znum (KDense Znum 8 2 [1;0;0;1;1;0;0;1;1;0;0;1;1;0;0;1] [0;1]) LinearAct
  end.
Definition ex_model := mkModel Znum ex_graph ex_layer true.
Definition ex_q (x : Q) : Z := Qnum x.

Lemma Znum_zero : zero_product_law Znum.
Proof. intros x y; cbn [T n0 nadd nmul Znum]; ring. Qed.
Lemma Znum_comm : mul_comm_law Znum.
Proof. intros x y; cbn [T n0 nadd nmul Znum]; ring. Qed.

Example C08_example_supported : supported Znum ex_model 0 /\ python_supported Znum ex_model.
Proof.
  pose proof Znum_zero as ZZ. pose proof Znum_comm as ZC.
  split; [constructor|].
  - apply of_edges_linked. reflexivity.
  - apply (of_edges_acyclic _ _ _ (fun i => nth i [0;1;2;0;3;4;5]%nat O)). reflexivity.
  - apply of_edges_no_repeat. repeat constructor; cbn; intuition congruence.
  - intros n Hn. cbn in Hn; destruct Hn as [<-|[<-|[<-|[<-|[<-|[<-|[<-|[]]]]]]]]; (split; [intros E; first [discriminate E|eexists; reflexivity]|intros (w & E); first [discriminate E|reflexivity]]).
  - apply of_edges_constants. reflexivity.
  - apply of_edges_single_input. reflexivity.
  - left. exists 1, 3, 3. split; [reflexivity|lia].
  - intros n Hn Hp. cbn in Hn; destruct Hn as [<-|[<-|[<-|[<-|[<-|[<-|[<-|[]]]]]]]]; try (exfalso; apply Hp; reflexivity);
      (split; [left; exact I|]); repeat split; try (vm_compute; congruence); try assumption.
    all: try (cbn; repeat constructor; vm_compute; congruence).
    all: try (cbn; tauto).
    all: try (repeat constructor; cbn; tauto).
    all: try (repeat constructor; vm_compute; intuition congruence).
  - intros n p cl C H W Hn EK EP. cbn in Hn; destruct Hn as [<-|[<-|[<-|[<-|[<-|[<-|[<-|[]]]]]]]]; try discriminate. injection EP as <-. reflexivity.
  - split.
    + intros n Hn. cbn in Hn; destruct Hn as [<-|[<-|[<-|[<-|[<-|[<-|[<-|[]]]]]]]]; try exact I; try (split; [exact ZC|reflexivity]).
      cbn. repeat split; try congruence; intros; try discriminate; try tauto; try ring; try (vm_compute; congruence).
      all: cbn in *; intuition (try congruence).
    + intros _ n Hn _. cbn in Hn; destruct Hn as [<-|[<-|[<-|[<-|[<-|[<-|[<-|[]]]]]]]]; exact I.
Qed.

(** On an input of 9 elements and arrays filled with 7, the generated code
    computes the same two numbers as the Python inference. *)
Definition ex_schedule : schedule := match tri_topo ex_graph with Some s => s | None => mkSchedule [] [] [] 0 end.
Definition ex_memory (x : list Z) : mem Z := fun b =>
  match b with NnIn => x | _ => repeat 7 (Z.to_nat (array_size (python_net Znum 0 ex_q ex_model ex_schedule) ex_schedule b)) end.
Example C08_example :
  tri_topo (md_graph Znum ex_model) = Some ex_schedule /\
  option_map (fun m : mem Z => m NnOut) (inference (python_net Znum 0 ex_q ex_model ex_schedule) ex_schedule (ex_memory (ramp 9)))
    = Some [440; -99] /\
  compute_inference (python_net Znum 0 ex_q ex_model ex_schedule) ex_schedule (ramp 9) = Some [440; -99].
Proof. repeat split; vm_compute; reflexivity. Qed.

(** ** C10.  A caller keeps the arrays and calls [inference] again and again. *)
Fixpoint run_calls {V} (net : network V) (s : schedule) (m : mem V) (inputs : list (list V)) : option (list (list V)) :=
  match inputs with
  | [] => Some []
  | x :: xs =>
    m' <- inference net s (upd m NnIn x) ;;
    ys <- run_calls net s m' xs ;;
    Some (m' NnOut :: ys)
  end.

(** Each call's result is a function [f] of that call's input only: the documented
    value of the network, whatever the arrays held before the first call and
    whatever the earlier calls were. *)
Theorem C10_calls_are_independent : forall (N : num) (ninf : T N) (q : Q -> T N) (md : model N) inp s,
  supported N md inp -> tri_topo (md_graph N md) = Some s ->
  exists f : list (T N) -> list (T N),
    (forall x val, evaluates (documented_net N ninf q md s) x val -> f x = md_post N md s (val (last (order s) O))) /\
    forall inputs (m : mem (T N)), declared (python_net N ninf q md s) s m ->
      Forall (fun x => zlen x = md_size N md inp) inputs ->
      run_calls (python_net N ninf q md s) s m inputs = Some (map f inputs).
Proof.
  intros N ninf q md inp s SP HS.
  set (net := documented_net N ninf q md s).
  assert (HX : no_constant_expression (md_graph N md)) by (apply (single_input_no_constant_expression _ inp); apply SP).
  set (v := fun x => eval_list net x (order s) (fun _ => [])).
  assert (Hv : forall x, evaluates net x (v x)).
  { intros x n Hn. apply (eval_list_eq net s) with (l1 := []); try apply SP; auto; [exact (supported_runnable N md inp s SP HS)|].
    apply (IO N ninf q md inp s SP HS). exact Hn. }
  exists (fun x => md_post N md s (v x (last (order s) O))). split.
  - intros x val E. f_equal. apply (C08_value_unique N ninf q md inp s x (v x) val SP HS (Hv x) E).
    apply (IO N ninf q md inp s SP HS). apply (last_in N ninf q md inp s SP HS).
  - intros inputs. induction inputs as [|x inputs IH]; intros m D F; [reflexivity|].
    inversion F as [|? ? Hx F']; subst. cbn [run_calls map].
    assert (D' : declared net s (upd m NnIn x)).
    { intros b. destruct (bname_eq_dec b NnIn) as [->|NE].
      - rewrite upd_same. unfold array_size. rewrite (hd_is_input N md inp s SP HS). exact Hx.
      - rewrite upd_other by exact NE. apply D. }
    destruct (model_inference_ok N ninf q md inp s SP HS (upd m NnIn x) (v x) D') as (m' & E & EO & D2 & _).
    { rewrite upd_same. apply Hv. }
    change (inference (python_net N ninf q md s) s (upd m NnIn x)) with (inference net s (upd m NnIn x)).
    unfold net in *. rewrite E. cbn [bind]. rewrite (IH m' D2 F'). cbn [bind]. rewrite EO. reflexivity.
Qed.
Print Assumptions C10_calls_are_independent.

(** Hypotheses: C08_example_supported.  Three calls on the model above, the
    first and the third on the same input. *)
Example C10_example :
  run_calls (python_net Znum 0 ex_q ex_model ex_schedule) ex_schedule (ex_memory (ramp 9)) [ramp 9; repeat 1 9; ramp 9]
  = Some [[440; -99]; [128; 17]; [440; -99]].
Proof. vm_compute. reflexivity. Qed.

(** ** C47.  Any layer functions, any graph: [forward net n] is the Python
    forward function of layer [n]; the argument list follows [previous_layer]. *)
Theorem C47_every_layer_reads_its_producers : forall (V : Type) (net : network V) s x,
  linked (net_graph net) -> acyclic (net_graph net) -> no_repeated_input (net_graph net) ->
  constants_are_sources (net_graph net) -> no_constant_expression (net_graph net) ->
  tri_topo (net_graph net) = Some s ->
  exists val,
    (forall n, In n (dnn (net_graph net)) -> val n =
       forward net n (match previous_layer (net_graph net) n with [] => [pre net x] | ps => map val ps end)) /\
    compute_inference net s x = Some (post net (val (last (order s) O))).
Proof.
  intros V net s x L A R C X E. pose proof (tri_topo_runnable _ s L A R C X E) as RN.
  destruct (evaluates_exists net s L RN x) as (val & Hv).
  exists val. split; [exact Hv|]. apply (compute_inference_ok net s L RN x val Hv).
Qed.
Print Assumptions C47_every_layer_reads_its_producers.

(** If a layer is scheduled before one of its producers, the inference raises. *)
Lemma publish_none {V} n (out : list V) p : p <> n -> forall succs o o',
  publish o n out succs = Some o' ->
  forall c, (forall d, o c = Some d -> iget d p = None) -> (forall d, o' c = Some d -> iget d p = None).
Proof.
  intros Np. induction succs as [|a succs IH]; intros o o' E c H; cbn [publish] in E.
  - injection E as <-. exact H.
  - destruct (o a) as [d|] eqn:Ea; [|discriminate]. cbn [bind] in E. apply (IH _ _ E c).
    intros d' Hd'. unfold oset in Hd'. destruct (Nat.eqb_spec c a) as [->|]; [|apply H; exact Hd'].
    injection Hd' as <-. cbn. destruct (Nat.eqb_spec p n); [congruence|]. apply H. exact Ea.
Qed.

Theorem C47_missing_input_raises : forall (V : Type) (net : network V) s x l1 n l2 p,
  order s = l1 ++ n :: l2 -> In p (previous_layer (net_graph net) n) -> ~ In p l1 -> p <> n ->
  compute_inference net s x = None.
Proof.
  intros V net s x l1 n l2 p E Hp Hl Hn. unfold compute_inference. rewrite E.
  assert (G : forall l o out, ~ In p l -> (forall d, o n = Some d -> iget d p = None) -> py_loop net (l ++ n :: l2) (o, out) = None).
  { induction l as [|a l IH]; intros o out Hnl H; cbn [app py_loop].
    - unfold py_step. cbn [fst]. destruct (o n) as [d|] eqn:Eo; [|reflexivity]. cbn [bind].
      replace (existsb _ (previous_layer (net_graph net) n)) with true; [reflexivity|].
      symmetry. apply existsb_exists. exists p. split; [exact Hp|]. rewrite (H d eq_refl). reflexivity.
    - destruct (py_step net a (o, out)) as [[o1 out1]|] eqn:Es; [|reflexivity]. cbn [bind]. apply IH.
      { intros Hin. apply Hnl. right. exact Hin. }
      unfold py_step in Es. cbn [fst] in Es. destruct (o a) as [da|]; [|discriminate]. cbn [bind] in Es.
      destruct (existsb _ _); [discriminate|]. destruct (gather_inputs net o a) as [xs|]; [|discriminate]. cbn [bind] in Es.
      destruct (publish o a (forward net a xs) (next_layer (net_graph net) a)) as [o2|] eqn:Ep; [|discriminate].
      cbn [bind] in Es. injection Es as <- <-. intros d Hd. unfold oset in Hd. destruct (Nat.eqb_spec n a) as [->|]; [discriminate|].
      assert (Np : p <> a) by (intros ->; apply Hnl; left; reflexivity).
      exact (publish_none a _ p Np _ _ _ Ep n H d Hd). }
  rewrite G; [reflexivity|exact Hl|].
  intros d Hd. destruct (existsb (Nat.eqb n) (l1 ++ n :: l2)); [|discriminate]. injection Hd as <-.
  cbn. destruct (Nat.eqb_spec p n); [congruence|reflexivity].
Qed.
Print Assumptions C47_missing_input_raises.

(** Concatenation [1;2] then [1;2;10] of what layers 1 and 2 produce; in the
    wrong order [2;0;1;3] the inference fails. *)
Definition ex_py_net : network Z :=
  mkNet (of_edges 4 [] [(0,1);(0,2);(2,3);(1,3)]%nat) (fun _ => 0) (fun _ => None) (fun _ => false) (fun _ _ _ m => Some m)
    (fun n xs => match n with 0%nat => concat xs | 3%nat => concat xs | _ => concat xs ++ [Z.of_nat n] end)
    (fun x => x) (fun y => y) (fun _ m => Some m).
Example C47_example :
  option_map (fun s => compute_inference ex_py_net s [7]) (tri_topo (net_graph ex_py_net)) = Some (Some [7; 2; 7; 1]) /\
  compute_inference ex_py_net (mkSchedule [2;0;1;3]%nat [] [] 0) [7] = None.
Proof. split; reflexivity. Qed.
