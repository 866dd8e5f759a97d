(** * C71, continued: PyTorch programs that are rejected or computed wrongly. *)
From Coq Require Import String.
From Coq Require Import ZArith List Lia Bool Reals Lra QArith Permutation.
Import ListNotations.
From Verif Require Import CMem Tensor Num RealInst Padding Conv Pooling Movement MovementProofs Linear Graph GraphSpec LayerKinds Net NetProofs Import ImportOtherProofs PropertiesImport PropertiesGraph PropertiesNet.
From Verif Require Activation Broadcast.
From Verif Require Import TorchSpec Torch TorchOps TorchOps2 TorchModel TorchRun PropertiesTorch.
Open Scope string_scope.
Open Scope list_scope.
Open Scope Z_scope.

(** A valid PyTorch program: it has a run on every input of its shape, and its
    calls are those that torch.export writes. *)
Definition torch_accepts (m : program) : Prop :=
  well_formed m /\ (exists sh, shaped m sh) /\ positive_dims (p_shape m) /\ (forall n, In n (p_nodes m) -> defaults_omitted (n_op n) (n_given n)).
(** Decided for concrete programs. *)
Definition memb (nm : string) (l : list string) : bool := existsb (String.eqb nm) l.
Fixpoint nodupb (l : list string) : bool := match l with [] => true | a :: r => negb (memb a r) && nodupb r end.
Fixpoint orderb (seen : list string) (ns : list node) : bool :=
  match ns with
  | [] => true
  | n :: r => negb (Nat.eqb (List.length (n_inputs n)) 0) && forallb (fun a => memb a seen) (n_inputs n) && orderb (seen ++ [n_name n]) r
  end.
Definition well_formedb (m : program) : bool :=
  nodupb (p_input m :: map n_name (p_nodes m)) && orderb [p_input m] (p_nodes m) &&
  forallb (fun nm => String.eqb nm (p_output m) || existsb (fun n => memb nm (n_inputs n)) (p_nodes m)) (p_input m :: map n_name (p_nodes m)) &&
  negb (Nat.eqb (List.length (p_nodes m)) 0).
Lemma memb_In nm l : memb nm l = true <-> In nm l.
Proof.
  unfold memb. rewrite existsb_exists. split; [intros (a & Ha & E); apply String.eqb_eq in E; subst; exact Ha|intros H; exists nm; split; [exact H|apply String.eqb_refl]].
Qed.
Lemma well_formed_checked m : well_formedb m = true -> well_formed m.
Proof.
  unfold well_formedb. rewrite !andb_true_iff. intros (((A & B) & C) & D). constructor.
  - clear -A. induction (p_input m :: map n_name (p_nodes m)) as [|a r IH]; [constructor|]. cbn in A. apply andb_true_iff in A. destruct A as [A1 A2]. constructor; [|apply IH; exact A2].
    intros H. apply memb_In in H. rewrite H in A1. discriminate.
  - clear -B. generalize dependent (p_nodes m). assert (G : forall ns seen, orderb seen ns = true -> forall before n after, ns = before ++ n :: after -> n_inputs n <> [] /\ incl (n_inputs n) (seen ++ map n_name before)).
    { induction ns as [|k ns IH]; intros seen B before n after E; [destruct before; discriminate|]. cbn in B. rewrite !andb_true_iff in B. destruct B as ((B1 & B2) & B3). destruct before as [|b before].
      - injection E as <- _. split; [intros H; rewrite H in B1; discriminate|]. intros a Ha. cbn. rewrite app_nil_r. rewrite forallb_forall in B2. apply memb_In. apply B2. exact Ha.
      - injection E as <- E. destruct (IH _ B3 _ _ _ E) as (H1 & H2). split; [exact H1|]. cbn [map]. rewrite <- app_assoc in H2. exact H2. }
    intros l B before n after E. exact (G _ _ B _ _ _ E).
  - intros nm Hnm NE. rewrite forallb_forall in C. specialize (C nm Hnm). apply orb_true_iff in C. destruct C as [C|C]; [apply String.eqb_eq in C; contradiction|].
    apply existsb_exists in C. destruct C as (n & Hn & C). exists n. split; [exact Hn|apply memb_In; exact C].
  - intros H. rewrite H in D. discriminate.
Qed.
(** The shapes PyTorch infers. *)
Fixpoint shapes (env : list (string * list Z)) (ns : list node) : option (list (string * list Z)) :=
  match ns with
  | [] => Some env
  | n :: r => ins <- all_some (map (shape_of env) (n_inputs n)) ;; out <- out_dims (n_op n) ins ;; shapes ((n_name n, out) :: env) r
  end.
Definition named_shape (env : list (string * list Z)) (nm : string) : list Z := match shape_of env nm with Some ds => ds | None => [] end.
Ltac valid env := split; [apply well_formed_checked; reflexivity|]; split; [exists (named_shape env); split; [reflexivity|intros n Hn; each_node Hn; reflexivity]|]; split; [repeat constructor|intros n Hn; each_node Hn; cbn; intuition (try discriminate; try lia)].

(** ** Valid programs on which the importer raises. *)
Definition one_call (shape : list Z) (o : op) (given : nat) : program := mkProgram "x" shape false [mkNode "y" o ["x"] given].
Definition two_calls (shape : list Z) (o1 : op) (given1 : nat) (o2 : op) (given2 : nat) : program :=
  mkProgram "x" shape false [mkNode "y" o1 ["x"] given1; mkNode "z" o2 ["y"] given2].
Definition joins (shape : list Z) (o1 : op) (given1 : nat) (o2 : op) (given2 : nat) : program :=
  mkProgram "x" shape false [mkNode "y" o1 ["x"] given1; mkNode "z" o2 ["x"; "y"] given2].
Definition conv_1x1 (w b : R) : op := Conv2d 1 1 1 1 [w] (Some [b]) 1 1 (Pads 0 0) 1 1 1.
Definition bn_1 (w b : R) : op := BatchNorm (Some [w]) (Some [b]) [0%R] [1%R] 0%R.
(** - max_pool2d with its default stride (the kernel size);
    - max_pool2d with ceil_mode, when it adds a window;
    - conv2d with neither bias nor further argument;
    - conv2d with padding="same", with a kernel or strides that are not square;
    - linear without bias, linear on an image;
    - clamp with one bound;
    - adaptive_avg_pool2d to 2 x 2;
    - sum and concatenation of vectors, concatenation along a negative dimension;
    - batch_norm without affine parameters, batch_norm of a pooled image;
    - relu of an operation that the importer ignores. *)
Theorem C71_valid_programs_rejected_refuted : forall impl m,
  In m
   [one_call [1; 4; 4] (MaxPool2d 2 2 2 2 0 0 1 1 false) 2;
    one_call [1; 3; 3] (MaxPool2d 2 2 2 2 0 0 1 1 true) 6;
    one_call [1; 2; 2] (Conv2d 1 1 1 1 [1%R] None 1 1 (Pads 0 0) 1 1 1) 2;
    one_call [1; 3; 3] (Conv2d 1 1 3 3 (repeat 1%R 9) (Some [0%R]) 1 1 SameString 1 1 1) 5;
    one_call [1; 3; 3] (Conv2d 1 1 1 2 [1; 1]%R (Some [0%R]) 1 1 (Pads 0 0) 1 1 1) 5;
    one_call [1; 3; 3] (Conv2d 1 1 1 1 [1%R] (Some [0%R]) 1 2 (Pads 0 0) 1 1 1) 5;
    one_call [2] (Linear 2 1 [1; 1]%R None) 2;
    one_call [1; 2; 2] (Linear 2 1 [1; 1]%R (Some [0%R])) 3;
    one_call [2] (Clamp (Some 0%R) None) 2;
    one_call [1; 4; 4] (AdaptiveAvgPool2d 2 2) 2;
    joins [1] (Linear 1 1 [1%R] (Some [0%R])) 3 (Add 1) 2;
    joins [1] (Linear 1 1 [1%R] (Some [0%R])) 3 (Cat 1) 2;
    joins [1; 2; 2] (conv_1x1 1 0) 3 (Cat (-3)) 2;
    two_calls [1; 2; 2] (conv_1x1 1 0) 3 (BatchNorm None None [0%R] [1%R] 0%R) 9;
    two_calls [1; 2; 2] (AdaptiveAvgPool2d 1 1) 2 (bn_1 1 0) 9;
    two_calls [1] Sigmoid 1 Relu 1] ->
  torch_accepts m /\ load_pytorch impl m = None.
Proof.
  intros impl m H. each_node H; (split; [|reflexivity]).
  all: match goal with |- torch_accepts ?m => let env := eval cbv in (shapes [(p_input m, p_shape m)] (p_nodes m)) in match env with Some ?e => valid e end end.
Qed.
Print Assumptions C71_valid_programs_rejected_refuted.

(** ** Accepted programs whose value is not PyTorch's. *)
Definition wrong_value (m : program) (x : list R) : Prop :=
  torch_accepts m /\ zlen x = size_of (p_shape m) /\
  forall impl, exists md s, load_pytorch impl m = Some (md, s) /\ tri_topo (md_graph Rnum md) = Some s /\
  forall ninf q, exists env val, runs m x env /\ evaluates (documented_net Rnum ninf q md s) (in_memory m (p_shape m) x) val /\
    md_post Rnum md s (val (last (order s) O)) <> in_memory m (dims (env (p_output m))) (vals (env (p_output m))).
Definition next_value {V} (net : network V) (x : list V) (val : nat -> list V) (n : nat) : nat -> list V :=
  update val n (forward net n (match previous_layer (net_graph net) n with [] => [pre net x] | ps => map val ps end)).
Definition values_of {V} (net : network V) (x : list V) (k : nat) : nat -> list V := fold_left (next_value net x) (seq 0 k) (fun _ => []).
Lemma values_are {V} (net : network V) x k : dnn (net_graph net) = seq 0 k ->
  (forall n, In n (seq 0 k) -> Forall (fun p => (p < n)%nat) (previous_layer (net_graph net) n)) -> evaluates net x (values_of net x k).
Proof.
  intros E H. enough (G : forall j, (j <= k)%nat -> forall n, (n < j)%nat -> values_of net x j n = forward net n (match previous_layer (net_graph net) n with [] => [pre net x] | ps => map (values_of net x j) ps end)).
  { intros n Hn. rewrite E in Hn. apply in_seq in Hn. apply G; lia. }
  induction j as [|j IH]; intros HJ n Hn; [lia|]. specialize (IH ltac:(lia)).
  assert (ES : values_of net x (S j) = next_value net x (values_of net x j) j) by (unfold values_of; rewrite seq_S, fold_left_app; reflexivity). rewrite ES.
  assert (K : map (next_value net x (values_of net x j) j) (previous_layer (net_graph net) n) = map (values_of net x j) (previous_layer (net_graph net) n)).
  { apply map_ext_in. intros p Hp. assert (Hk : In n (seq 0 k)) by (apply in_seq; lia). pose proof (proj1 (Forall_forall _ _) (H n Hk) p Hp) as LT. cbv beta in LT. unfold next_value, update. destruct (Nat.eqb_spec p j); [lia|reflexivity]. }
  unfold next_value at 1, update. destruct (Nat.eqb_spec n j) as [->|NE].
  - destruct (previous_layer (net_graph net) j) eqn:EP; [reflexivity|]. rewrite K. reflexivity.
  - rewrite (IH n ltac:(lia)). destruct (previous_layer (net_graph net) n) eqn:EP; [reflexivity|]. rewrite K. reflexivity.
Qed.
Lemma wrong_intro m x k : torch_accepts m -> zlen x = size_of (p_shape m) ->
  (forall impl, exists md s, load_pytorch impl m = Some (md, s) /\ tri_topo (md_graph Rnum md) = Some s /\ dnn (md_graph Rnum md) = seq 0 k /\
    (forall n, In n (seq 0 k) -> Forall (fun p => (p < n)%nat) (previous_layer (md_graph Rnum md) n)) /\
    forall ninf q, md_post Rnum md s (values_of (documented_net Rnum ninf q md s) (in_memory m (p_shape m) x) k (last (order s) O)) <>
      in_memory m (dims (run_on m x (p_output m))) (vals (run_on m x (p_output m)))) -> wrong_value m x.
Proof.
  intros TA HX H. split; [exact TA|]. split; [exact HX|]. intros impl. destruct (H impl) as (md & s & EL & ES & ED & EP & NE). exists md, s. split; [exact EL|]. split; [exact ES|].
  intros ninf q. destruct TA as (WF & (sh & SH) & _). exists (run_on m x), (values_of (documented_net Rnum ninf q md s) (in_memory m (p_shape m) x) k).
  split; [exact (run_on_runs m sh x WF SH)|]. split; [exact (values_are (documented_net Rnum ninf q md s) _ k ED EP)|]. apply NE.
Qed.
Ltac accepted_program := match goal with |- torch_accepts ?m => let env := eval cbv in (shapes [(p_input m, p_shape m)] (p_nodes m)) in match env with Some ?e => valid e end end.
(** [element] of the two values, as real expressions in [E] *)
Ltac both_values layers element E :=
  apply (wrong_intro _ _ layers); [accepted_program|reflexivity|]; intros impl; eexists _, _; split; [reflexivity|]; split; [reflexivity|]; split; [reflexivity|];
  split; [intros n Hn; each_node Hn; repeat constructor|]; intros ninf q E; apply (f_equal (fun l => nth element l 0%R)) in E;
  lazy -[IZR Rmax Rmin Rplus Rmult Rminus Rdiv Ropp Rlt_dec sqrt Rinv exp] in E.

Ltac numbers E :=
  repeat (match type of E with
          | context [Rlt_dec ?a ?b] => destruct (Rlt_dec a b)
          | context [Rmax ?a ?b] => first [rewrite (Rmax_left a b) in E by lra|rewrite (Rmax_right a b) in E by lra]
          | context [Rmin ?a ?b] => first [rewrite (Rmin_left a b) in E by lra|rewrite (Rmin_right a b) in E by lra]
          end); lra.

(** leaky_relu is imported as relu. *)
Theorem C71_leaky_relu_refuted : wrong_value (two_calls [1] (Linear 1 1 [1%R] (Some [0%R])) 3 (LeakyRelu (1 / 2)) 2) [(-1)%R].
Proof. both_values 2%nat 0%nat E. numbers E. Qed.
Print Assumptions C71_leaky_relu_refuted.
(** An operation that the importer does not know is skipped when it is the last one. *)
Theorem C71_last_operation_dropped_refuted : forall o, In o [Sigmoid; Hardtanh (-1) 1; Softmax] ->
  wrong_value (two_calls [1] (Linear 1 1 [1%R] (Some [0%R])) 3 o 1) [2%R].
Proof.
  intros o [<-|[<-|[<-|[]]]].
  - both_values 2%nat 0%nat E. match type of E with context [exp ?a] => pose proof (exp_pos a) as P; set (e := exp a) in * end. assert (G : ((1 / (1 + e)) * (1 + e) = 1)%R) by (field; lra). rewrite <- E in G. lra.
  - both_values 2%nat 0%nat E. numbers E.
  - both_values 2%nat 0%nat E. match type of E with context [exp ?a] => pose proof (exp_pos a) as P end. unfold Rdiv in E. rewrite (Rplus_0_l (exp _)), Rinv_r in E by lra. lra.
Qed.
Print Assumptions C71_last_operation_dropped_refuted.
(** An activation of the input is ignored. *)
Theorem C71_input_activation_refuted : wrong_value (two_calls [1] Relu 1 (Linear 1 1 [1%R] (Some [0%R])) 3) [(-1)%R].
Proof. both_values 2%nat 0%nat E. numbers E. Qed.
Print Assumptions C71_input_activation_refuted.
(** A second activation replaces the first. *)
Theorem C71_second_activation_refuted :
  wrong_value (mkProgram "x" [1] false [mkNode "fc" (Linear 1 1 [1%R] (Some [0%R])) ["x"] 3; mkNode "c" (Clamp (Some (-2)%R) (Some 2%R)) ["fc"] 3; mkNode "r" Relu ["c"] 1]) [3%R].
Proof.
  apply (wrong_intro _ _ 2%nat); [accepted_program|reflexivity|]; intros impl. destruct (Rlt_dec 2 (-2)) as [L|L] eqn:D; [exfalso; lra|]. eexists _, _. split; [lazy -[IZR Rlt_dec]; rewrite D; reflexivity|]. split; [reflexivity|]; split; [reflexivity|].
  split; [intros n Hn; each_node Hn; repeat constructor|]; intros ninf q E; apply (f_equal (fun l => nth 0 l 0%R)) in E. lazy -[IZR Rmax Rmin Rplus Rmult Rminus Rdiv Ropp Rlt_dec sqrt Rinv exp] in E. numbers E.
Qed.
Print Assumptions C71_second_activation_refuted.
(** relu of a tensor that another operation reads: the other operation gets the activated value. *)
Theorem C71_shared_operand_refuted :
  wrong_value (mkProgram "x" [1; 1; 1] false [mkNode "y" (conv_1x1 1 0) ["x"] 3; mkNode "r" Relu ["y"] 1; mkNode "z" (Add 1) ["y"; "r"] 2]) [(-1)%R].
Proof. both_values 3%nat 0%nat E. numbers E. Qed.
Print Assumptions C71_shared_operand_refuted.
(** batch_norm of an activated convolution is applied before the activation. *)
Theorem C71_norm_after_activation_refuted :
  wrong_value (mkProgram "x" [1; 1; 1] false [mkNode "y" (conv_1x1 1 0) ["x"] 3; mkNode "r" Relu ["y"] 1; mkNode "z" (bn_1 1 1) ["r"] 9]) [(-1)%R].
Proof. both_values 2%nat 0%nat E. rewrite !Rplus_0_r, sqrt_1 in E. numbers E. Qed.
Print Assumptions C71_norm_after_activation_refuted.
(** batch_norm of a linear operation scales the weights along the inputs. *)
Theorem C71_norm_of_linear_refuted :
  wrong_value (two_calls [2] (Linear 2 2 [1; 1; 1; 1]%R (Some [0; 0]%R)) 3 (BatchNorm (Some [2; 1]%R) (Some [0; 0]%R) [0; 0]%R [1; 1]%R 0%R) 9) [1; 0]%R.
Proof. both_values 2%nat 1%nat E. rewrite !Rplus_0_r, sqrt_1 in E. numbers E. Qed.
Print Assumptions C71_norm_of_linear_refuted.
(** alpha of add is ignored. *)
Theorem C71_add_alpha_refuted : wrong_value (joins [1; 1; 1] (conv_1x1 1 0) 3 (Add 2) 2) [1%R].
Proof. both_values 3%nat 0%nat E. numbers E. Qed.
Print Assumptions C71_add_alpha_refuted.
(** The dilation of max_pool2d is ignored. *)
Theorem C71_pool_dilation_refuted :
  wrong_value (one_call [1; 5; 5] (MaxPool2d 2 2 2 2 0 0 2 2 false) 5) [0; 0; 0; 0; 0; 0; 1; 0; 0; 0; 0; 0; 0; 0; 0; 0; 0; 0; 0; 0; 0; 0; 0; 0; 0]%R.
Proof. both_values 2%nat 0%nat E. numbers E. Qed.
Print Assumptions C71_pool_dilation_refuted.
(** adaptive_avg_pool2d of an image that is not square: the windows are wrong. *)
Theorem C71_adaptive_pool_refuted : wrong_value (one_call [1; 4; 3] (AdaptiveAvgPool2d 2 1) 2) [1; 1; 1; 1; 1; 1; 0; 0; 0; 0; 0; 0]%R.
Proof. both_values 2%nat 0%nat E. numbers E. Qed.
Print Assumptions C71_adaptive_pool_refuted.
(** An image with one channel counts as channels_last: a flattened output comes
    in (height, width, channels) order. *)
Theorem C71_flattened_output_refuted :
  wrong_value (mkProgram "x" [1; 1; 2] true [mkNode "y" (Conv2d 2 1 1 1 [1; 0]%R (Some [0; 0]%R) 1 1 (Pads 0 0) 1 1 1) ["x"] 3; mkNode "f" Flatten ["y"] 2]) [1; 2]%R.
Proof. both_values 2%nat 1%nat E. numbers E. Qed.
Print Assumptions C71_flattened_output_refuted.
(** A channels_last program that returns its input gives it in channels_first order. *)
Theorem C71_returned_input_refuted : wrong_value (mkProgram "x" [2; 1; 2] true [mkNode "d" Dropout ["x"] 1]) [1; 2; 3; 4]%R.
Proof. both_values 1%nat 1%nat E. numbers E. Qed.
Print Assumptions C71_returned_input_refuted.
