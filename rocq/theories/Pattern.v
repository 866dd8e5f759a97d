(** * The optimiser: src/acetone_nnet/pattern_matching (PatternMatcher.py,
    Pattern.py, patterns/*.py), run by CodeGenerator.__init__ on the list of
    layers (generator/neural_network.py:158-159) before implementations are
    chosen.

    Layers are mutable objects.  An object is a number; its attributes are
    functions of that number.  [idx] is one of the attributes: the patterns
    change it.  Where Python compares layers with ==  (list.index, list.remove,
    in) the model compares objects; Layer.__eq__ compares all the attributes
    including idx, so this is the same as long as idx are distinct. *)
From Coq Require Import ZArith List Lia Bool QArith.
Import ListNotations.
From Verif Require Import CMem Tensor Num Activation Conv Graph Net LayerKinds.
From Verif Require Broadcast.

(** Python's list.remove, list.index and list.pop; [None] is ValueError / IndexError. *)
Fixpoint list_remove (x : nat) (l : list nat) : option (list nat) :=
  match l with
  | [] => None
  | y :: l' => if Nat.eqb x y then Some l' else option_map (cons y) (list_remove x l')
  end.
Fixpoint list_index (x : nat) (l : list nat) : option nat :=
  match l with
  | [] => None
  | y :: l' => if Nat.eqb x y then Some O else option_map S (list_index x l')
  end.
Fixpoint list_pop (i : nat) (l : list nat) : option (list nat) :=
  match i, l with
  | _, [] => None
  | O, _ :: l' => Some l'
  | S i', y :: l' => option_map (cons y) (list_pop i' l')
  end.
(** dict.pop and dict[k] = v. *)
Definition dpop (d : list (nat * nat)) (k : nat) : list (nat * nat) := filter (fun e => negb (Nat.eqb k (fst e))) d.
Definition dset (d : list (nat * nat)) (k v : nat) : list (nat * nat) := (k, v) :: dpop d k.
(** Assignment to an attribute of one object. *)
Definition put {A} (f : nat -> A) (k : nat) (v : A) : nat -> A := fun i => if Nat.eqb i k then v else f i.

Section Pattern.
  Context (N : num).
  Notation V := (T N).

  (** The layer objects and the attributes of the generator the patterns read or change. *)
  Record pnet := mkPnet {
    pn_layers : list nat;             (* the list being optimised *)
    pn_idx : nat -> nat;              (* Layer.idx *)
    pn_prev : nat -> list nat;        (* Layer.previous_layer *)
    pn_next : nat -> list nat;        (* Layer.next_layer *)
    pn_path : nat -> nat;             (* Layer.path *)
    pn_str : nat -> bname;            (* Layer.output_str, set by find_output_str before the optimiser runs *)
    pn_layer : nat -> layer N;        (* class, parameters and activation_function *)
    pn_dict : list (nat * nat);       (* dict_cst, from idx to saved tensor *)
    pn_max : nat;                     (* maxpath *)
    pn_last : bool                    (* data_format == "channels_last" *)
  }.
  Definition set_layers st l := mkPnet l (pn_idx st) (pn_prev st) (pn_next st) (pn_path st) (pn_str st) (pn_layer st) (pn_dict st) (pn_max st) (pn_last st).
  Definition set_idx st o v := mkPnet (pn_layers st) (put (pn_idx st) o v) (pn_prev st) (pn_next st) (pn_path st) (pn_str st) (pn_layer st) (pn_dict st) (pn_max st) (pn_last st).
  Definition set_prev st o v := mkPnet (pn_layers st) (pn_idx st) (put (pn_prev st) o v) (pn_next st) (pn_path st) (pn_str st) (pn_layer st) (pn_dict st) (pn_max st) (pn_last st).
  Definition set_next st o v := mkPnet (pn_layers st) (pn_idx st) (pn_prev st) (put (pn_next st) o v) (pn_path st) (pn_str st) (pn_layer st) (pn_dict st) (pn_max st) (pn_last st).
  Definition set_path st o v := mkPnet (pn_layers st) (pn_idx st) (pn_prev st) (pn_next st) (put (pn_path st) o v) (pn_str st) (pn_layer st) (pn_dict st) (pn_max st) (pn_last st).
  Definition set_str st o v := mkPnet (pn_layers st) (pn_idx st) (pn_prev st) (pn_next st) (pn_path st) (put (pn_str st) o v) (pn_layer st) (pn_dict st) (pn_max st) (pn_last st).
  Definition set_layer st o v := mkPnet (pn_layers st) (pn_idx st) (pn_prev st) (pn_next st) (pn_path st) (pn_str st) (put (pn_layer st) o v) (pn_dict st) (pn_max st) (pn_last st).
  Definition set_dict st d := mkPnet (pn_layers st) (pn_idx st) (pn_prev st) (pn_next st) (pn_path st) (pn_str st) (pn_layer st) d (pn_max st) (pn_last st).

  (** ** Pattern.py *)
  (** Pattern.py:54-77 update_indices.  [index] is a list position; positions
      here are natural numbers: the callers pass index - 1, which is -1 only for
      index = 0, where Python raises at the second test, like the model. *)
  Definition update_indices (index shift : nat) (st : pnet) : option pnet :=
    r <- nth_error (pn_layers st) index ;;
    let ref := pn_idx st r in
    if Nat.ltb index shift then None
    else Some (fold_left (fun st o =>
      let i := pn_idx st o in
      if Nat.ltb ref i then
        let st' := match dget (pn_dict st) i with
                   | Some c => set_dict st (dset (dpop (pn_dict st) i) (i - shift) c)
                   | None => st
                   end in
        set_idx st' o (i - shift)
      else st) (pn_layers st) st).

  (** Pattern.py:79-90 update_next_layers *)
  Definition replace_in (removed repl : nat) (l : list nat) : list nat :=
    map (fun x => if Nat.eqb x removed then repl else x) l.
  Definition update_next_layers (removed repl : nat) (st : pnet) : pnet :=
    fold_left (fun st nx =>
      let st' := if memb nx (pn_next st repl) then st else set_next st repl (pn_next st repl ++ [nx]) in
      set_prev st' nx (replace_in removed repl (pn_prev st' nx))) (pn_next st removed) st.

  (** Pattern.py:106-112 update_dict_cst *)
  Definition update_dict_cst (removed repl : nat) (st : pnet) : pnet :=
    let st1 := set_str st repl (pn_str st removed) in
    match dget (pn_dict st) (pn_idx st removed) with
    | Some c => set_dict st1 (dpop (dset (pn_dict st1) (pn_idx st repl) c) (pn_idx st removed))
    | None => st1
    end.

  Definition is_linear (a : activation N) : bool := match a with LinearAct => true | _ => false end.
  Definition is_activation_layer (k : kind N) : bool := match k with KActivation _ _ => true | _ => false end.
  Definition is_conv2d (k : kind N) : bool := match k with KConv _ _ _ _ _ => true | _ => false end.
  Definition is_batchnorm (k : kind N) : bool := match k with KBatchNorm _ _ _ _ _ _ _ _ _ => true | _ => false end.
  Definition is_multiply (k : kind N) : bool := match k with KBroadcast _ Broadcast.BMul _ _ _ => true | _ => false end.
  Definition is_constant_layer (k : kind N) : bool := match k with KConstant _ _ => true | _ => false end.
  Definition kind_of st n := lkind N (pn_layer st n).
  Definition act_of st n := lact N (pn_layer st n).

  (** ** patterns/FuseActivationLayers.py:46-67 is_pattern (every layer has an
      attribute activation_function, ir/layer.py:88) *)
  Definition is_fuse_activation (st : pnet) (n : nat) : bool :=
    is_activation_layer (kind_of st n) &&
    match pn_prev st n with
    | [p] => negb (is_activation_layer (kind_of st p)) && is_linear (act_of st p) && Nat.eqb (length (pn_next st p)) 1
    | _ => false
    end.
  (** :69-97 apply_pattern *)
  Definition fuse_activation (st : pnet) (index : nat) : option (pnet * nat) :=
    n <- nth_error (pn_layers st) index ;;
    p <- hd_error (pn_prev st n) ;;
    let st1 := set_layer st p (mkLayer N (kind_of st p) (act_of st n)) in
    let st2 := update_dict_cst n p st1 in
    nx <- list_remove n (pn_next st2 p) ;;
    let st3 := update_next_layers n p (set_next st2 p nx) in
    ls <- list_pop index (pn_layers st3) ;;
    st4 <- update_indices (index - 1) 1 (set_layers st3 ls) ;;
    j <- list_index p (pn_layers st4) ;;
    Some (st4, j).

  (** ** patterns/FuseConvBatchNorm.py:48-69 is_pattern *)
  Definition is_fuse_conv_bn (st : pnet) (n : nat) : bool :=
    is_batchnorm (kind_of st n) &&
    match pn_prev st n with
    | [p] => is_conv2d (kind_of st p) && Nat.eqb (length (pn_next st p)) 1 && is_linear (act_of st p)
    | _ => false
    end.
  (** :83-96: the new weights and biases *)
  Open Scope Z_scope.
  Definition bn_alpha (scale var : list V) (eps : V) (z : Z) : V :=
    ndiv N (nthZ (n0 N) scale z) (nsqrt N (nadd N (nthZ (n0 N) var z) eps)).
  Definition fused_weights (c : conv_params) (w scale var : list V) (eps : V) : list V :=
    tab (nf c * ic c * kh c * kw c) (fun k =>
      nmul N (bn_alpha scale var eps (k / (ic c * kh c * kw c))) (nthZ (n0 N) w k)).
  Definition fused_biases (c : conv_params) (b scale mean var bias : list V) (eps : V) : list V :=
    tab (nf c) (fun z =>
      let alpha := bn_alpha scale var eps z in
      let B := nsub N (nthZ (n0 N) bias z) (nmul N (nthZ (n0 N) mean z) alpha) in
      nadd N (nmul N alpha (nthZ (n0 N) b z)) B).
  Close Scope Z_scope.
  (** :71-109 apply_pattern.  conv is layers[index - 1], not
      previous_layer[0]; anything but a Conv2D there raises (no attribute
      weights, or not four dimensions). *)
  Definition fuse_conv_bn (st : pnet) (index : nat) : option (pnet * nat) :=
    n <- nth_error (pn_layers st) index ;;
    p <- nth_error (pn_layers st) (index - 1) ;;
    match kind_of st p, kind_of st n with
    | KConv _ impl c w b, KBatchNorm _ _ _ _ scale mean var bias eps =>
      let l := mkLayer N (KConv N impl c (fused_weights c w scale var eps) (fused_biases c b scale mean var bias eps)) (act_of st n) in
      let st1 := set_layer st p l in
      nx <- list_remove n (pn_next st1 p) ;;
      let st2 := update_next_layers n p (set_next st1 p nx) in
      let st3 := update_dict_cst n p st2 in
      ls <- list_pop index (pn_layers st3) ;;
      st4 <- update_indices (index - 1) 1 (set_layers st3 ls) ;;
      j <- list_index p (pn_layers st4) ;;
      Some (st4, j)
    | _, _ => None
    end.

  (** ** patterns/FuseMatMulAdd.py:48-74 is_pattern.  input_shapes is a list of
      two shapes (matmul/MatMul.py:51-56), so input_shapes[1:].count(1) counts
      the elements equal to the integer 1 in a list of shapes: none. *)
  Definition matmul_input_shapes (k : kind N) : list (list Z) :=
    match k with KMatMul _ C OH OW K => [[1; C; OH; K]; [1; C; K; OW]]%Z | _ => [] end.
  Definition shape_is_the_integer_1 (s : list Z) : bool := false.
  Definition is_matmul (k : kind N) : bool := match k with KMatMul _ _ _ _ _ => true | _ => false end.
  Definition is_add (k : kind N) : bool := match k with KBroadcast _ Broadcast.BAdd _ _ _ => true | _ => false end.
  Definition is_matmul_add (st : pnet) (n : nat) : bool :=
    is_matmul (kind_of st n) && Nat.eqb (length (pn_prev st n)) 1 &&
    Nat.leb 2 (length (filter shape_is_the_integer_1 (tl (matmul_input_shapes (kind_of st n))))) &&
    is_linear (act_of st n) &&
    match pn_next st n with
    | [a] => is_add (kind_of st a) && Nat.leb (length (pn_prev st a)) 2
             (* and a.constant is not None: Add has no such attribute *)
    | _ => false
    end.
  (** :76-122 apply_pattern is never reached (C38_matmul_add_never_replaced); it
      reads attributes MatMul and Add do not have (weights, side, constant). *)
  Definition matmul_add (st : pnet) (index : nat) : option (pnet * nat) := None.

  (** ** patterns/FuseSigmoidMul.py:46-83 is_pattern.  ActivationLayer.name is the
      capitalised name of its function, "Sigmoid" exactly for Sigmoid. *)
  Definition is_sigmoid (a : activation N) : bool := match a with Sigmoid => true | _ => false end.
  Definition is_sigmoid_mul (st : pnet) (n : nat) : bool :=
    is_activation_layer (kind_of st n) && is_sigmoid (act_of st n) &&
    match pn_prev st n, pn_next st n with
    | [p], [m] =>
        is_linear (act_of st p) && Nat.eqb (length (pn_next st p)) 2 && is_multiply (kind_of st m) &&
        Nat.eqb (length (pn_prev st m)) 2 && memb m (pn_next st p)
    | _, _ => false
    end.
  (** :85-124 apply_pattern.  The new ActivationLayer takes the number of the
      sigmoid, which no list mentions afterwards. *)
  Definition sigmoid_mul (st : pnet) (index : nat) : option (pnet * nat) :=
    n <- nth_error (pn_layers st) index ;;
    p <- hd_error (pn_prev st n) ;;
    m <- hd_error (pn_next st n) ;;
    let size := out_size N (kind_of st n) in
    let st1 := set_str (set_path (set_prev (set_next (set_layer st n (mkLayer N (KActivation N size) (@Silu N)))
                 n (pn_next st m)) n [p]) n (pn_path st m)) n (pn_str st m) in
    nx1 <- list_remove m (pn_next st1 p) ;;
    nx2 <- list_remove n nx1 ;;
    let st2 := update_dict_cst m n (update_next_layers m n (set_next st1 p (nx2 ++ [n]))) in
    ls <- list_remove m (pn_layers st2) ;;
    st3 <- update_indices index 1 (set_layers st2 ls) ;;
    j <- list_index p (pn_layers st3) ;;
    Some (st3, j).

  (** ** PatternMatcher.py *)
  Record pattern := mkPattern {
    is_pattern : pnet -> nat -> bool;
    apply_pattern : pnet -> nat -> option (pnet * nat)
  }.
  (** Registration order: patterns/__init__.py:21-24. *)
  Definition registered : list pattern :=
    [mkPattern is_fuse_activation fuse_activation; mkPattern is_fuse_conv_bn fuse_conv_bn;
     mkPattern is_matmul_add matmul_add; mkPattern is_sigmoid_mul sigmoid_mul].

  (** PatternMatcher.py:53-60, one iteration: every pattern is tested on the
      layer found at the position where the iteration started. *)
  Fixpoint try_patterns (ps : list pattern) (layer : nat) (st : pnet) (i : nat) : option (pnet * nat) :=
    match ps with
    | [] => Some (st, i)
    | p :: ps' =>
      if is_pattern p st layer then
        r <- apply_pattern p st i ;; try_patterns ps' layer (fst r) (snd r)
      else try_patterns ps' layer st i
    end.

  Inductive outcome := Done (st : pnet) | Raised | OutOfFuel.
  (** PatternMatcher.py:42-63 match, the while loop; [fuel] bounds the number of
      iterations. *)
  Fixpoint match_loop (fuel : nat) (st : pnet) (i : nat) : outcome :=
    match nth_error (pn_layers st) i with
    | None => Done st
    | Some layer =>
      match fuel with
      | O => OutOfFuel
      | S fuel' =>
        match try_patterns registered layer st i with
        | None => Raised
        | Some (st', i') => match_loop fuel' st' (S i')
        end
      end
    end.
  Definition optimise (st : pnet) : outcome :=
    match_loop (S (length (pn_layers st)) * S (length (pn_layers st))) st 0.

  (** ** What the generator makes of the layers.
      The state the importer leaves: tri_topo's order and allocation, and
      find_output_str of every layer. *)
  Definition initial (md : model N) (s : schedule) : pnet :=
    mkPnet (order s) (fun n => n) (previous_layer (md_graph N md)) (next_layer (md_graph N md))
      (fun n => match dget (paths s) n with Some k => k | None => O end)
      (fun n => match output_str s n with Some b => b | None => Temp end)
      (md_layer N md) (csts s) (max_path s) (md_last N md).

  (** The same data as a model and a schedule. *)
  Definition graph_of (st : pnet) : graph :=
    mkGraph (pn_layers st) (pn_prev st) (pn_next st) (fun n => is_constant_layer (kind_of st n)).
  Definition model_of (st : pnet) : model N := mkModel N (graph_of st) (pn_layer st) (pn_last st).
  Definition saved_in (st : pnet) (n : nat) : option nat := dget (pn_dict st) (pn_idx st n).
  Definition schedule_of (st : pnet) : schedule :=
    mkSchedule (pn_layers st) (map (fun n => (n, pn_path st n)) (pn_layers st))
      (flat_map (fun n => match saved_in st n with Some k => [(n, k)] | None => [] end) (pn_layers st))
      (pn_max st).

  (** The generated inference function of a state: every template takes the
      arrays of its operands from [output_str] and its own array from [path];
      the copy into cst_k is emitted when dict_cst has the layer's idx
      (neural_network.py:893-905), and the output copy reads the array of the
      last layer of the list (:929-949). *)
  Section Generated.
    Context (ninf : V) (q : Q -> V).
    Definition pn_sources (st : pnet) (n : nat) : list bname :=
      match pn_prev st n with [] => [NnIn] | ps => map (pn_str st) ps end.
    Definition pn_run_layer (st : pnet) (m : mem V) (n : nat) : option (mem V) :=
      m1 <- gen_code N ninf q (pn_last st) (pn_layer st n) (pn_sources st n) (Out (pn_path st n)) m ;;
      match saved_in st n with
      | Some k => Movement.copy_c (Out (pn_path st n)) (Cst k) (out_size N (kind_of st n)) m1
      | None => Some m1
      end.
    Fixpoint pn_run_layers (st : pnet) (l : list nat) (m : mem V) : option (mem V) :=
      match l with
      | [] => Some m
      | n :: l' => m1 <- pn_run_layer st m n ;; pn_run_layers st l' m1
      end.
    Definition pn_inference (st : pnet) (m : mem V) : option (mem V) :=
      m1 <- pn_run_layers st (pn_layers st) m ;;
      md_output_code N (model_of st) (schedule_of st) (Out (pn_path st (last (pn_layers st) O))) m1.
    (** The arrays as the header declares them. *)
    Definition pn_declared (st : pnet) (m : mem V) : Prop :=
      declared (python_net N ninf q (model_of st) (schedule_of st)) (schedule_of st) m.
    (** compute_inference on the optimised layers (its dictionaries are keyed by
        idx; by object here, the same when idx are distinct). *)
    Definition pn_compute_inference (st : pnet) (x : list V) : option (list V) :=
      compute_inference (python_net N ninf q (model_of st) (schedule_of st)) (schedule_of st) x.
  End Generated.
End Pattern.
