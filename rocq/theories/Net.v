(** * The whole generated inference function and the Python inference.

    A network is a layer graph together with, for each layer, its size, the C
    code emitted for it and its Python forward function.  Everything here is
    independent of the kinds of layers; LayerKinds.v instantiates it. *)
From Coq Require Import ZArith List Lia Bool.
Import ListNotations.
Open Scope Z_scope.
From Verif Require Import CMem Tensor Movement Graph.

Section Net.
  Context {V : Type}.
  Notation mem := (mem V).

  Record network := mkNet {
    net_graph : graph;
    size : nat -> Z;                        (* Layer.size *)
    patches_size : nat -> option Z;         (* Some for Conv2DStdGemm | Conv2DGemmTarget *)
    is_concat : nat -> bool;                (* isinstance(_, Concatenate) *)
    (* generate_inference_code_layer: arrays read, own array *)
    code : nat -> list bname -> bname -> mem -> option mem;
    (* forward_path_layer; the argument list has one element for a layer
       without or with a single previous layer *)
    forward : nat -> list (list V) -> list V;
    (* neural_network.py:494-504: conversion of the input by compute_inference *)
    pre : list V -> list V;
    (* neural_network.py:574-579: conversion of the output by compute_inference *)
    post : list V -> list V;
    (* template_output.c.tpl: array of the last layer to [prediction] *)
    output_code : bname -> mem -> option mem
  }.

  Section OneNet.
    Context (net : network).
    Let g := net_graph net.

    (** The arrays named in the code of layer [n]: nn_input for a layer without
        previous layer (template_Input_Layer.c.tpl), otherwise
        find_output_str of each previous layer (ir/layer.py:168-179). *)
    Fixpoint all_some {A} (l : list (option A)) : option (list A) :=
      match l with
      | [] => Some []
      | o :: l' => x <- o ;; xs <- all_some l' ;; Some (x :: xs)
      end.
    Definition sources (s : schedule) (n : nat) : option (list bname) :=
      match previous_layer g n with
      | [] => Some [NnIn]
      | ps => all_some (map (output_str s) ps)
      end.

    (** templates/template_source_file.c.tpl, section "layers": the code of the
        layer, then the copy into its saved tensor if it has one
        (neural_network.py:893-905).  Debug and timing prints are not modelled. *)
    Definition run_layer (s : schedule) (m : mem) (n : nat) : option mem :=
      srcs <- sources s n ;;
      p <- dget (paths s) n ;;
      m1 <- code net n srcs (Out p) m ;;
      match dget (csts s) n with
      | Some k => copy_c (Out p) (Cst k) (size net n) m1
      | None => Some m1
      end.

    Fixpoint run_layers (s : schedule) (l : list nat) (m : mem) : option mem :=
      match l with
      | [] => Some m
      | n :: l' => m1 <- run_layer s m n ;; run_layers s l' m1
      end.

    (** The body of [inference]: all the layers, then the output copy
        (neural_network.py:929-949, self.layers[-1].path). *)
    Definition inference (s : schedule) (m : mem) : option mem :=
      m1 <- run_layers s (order s) m ;;
      p <- dget (paths s) (last (order s) O) ;;
      output_code net (Out p) m1.

    (** ** Array sizes of the header: neural_network.py:840 (l_size_max),
        neural_network.py:980-1019; [max(..., default=1)] applies to a network
        without layers only. *)
    Definition max_list (l : list Z) : Z := fold_right Z.max 0 l.
    Definition l_size_max (s : schedule) : Z := max_list (map (size net) (order s)).
    Definition patches_size_max (s : schedule) : Z :=
      Z.max 1 (max_list (map (fun n =>
        Z.max (match patches_size net n with Some p => p | None => 0 end)
              (if is_concat net n then size net n else 0)) (order s))).
    Definition path_size (s : schedule) : Z :=
      if existsb (fun n => match patches_size net n with Some _ => true | None => false end) (order s)
      then Z.max (l_size_max s) (patches_size_max s) else l_size_max s.
    Definition cst_size (s : schedule) (k : nat) : Z :=
      max_list (map (fun e => size net (fst e)) (filter (fun e => Nat.eqb (snd e) k) (csts s))).
    Definition temp_size (s : schedule) : Z := Z.max (l_size_max s) (patches_size_max s).
    (** Number of cells of each array; 0 for arrays that are not declared.
        nn_input and prediction: neural_network.py:806-808. *)
    Definition array_size (s : schedule) (b : bname) : Z :=
      match b with
      | Out k => if Nat.ltb k (max_path s) then path_size s else 0
      | Cst k => cst_size s k
      | Temp => temp_size s
      | NnIn => size net (hd O (order s))
      | NnOut => size net (last (order s) O)
      end.
    Definition declared (s : schedule) (m : mem) : Prop := forall b, zlen (m b) = array_size s b.

    (** ** compute_inference, neural_network.py:494-581, for one input.
        [layer_inputs] is a dictionary of dictionaries; the inner dictionaries
        are kept by layer.  [None] is an exception. *)
    Definition inner := list (nat * list V).
    Fixpoint iget (d : inner) (k : nat) : option (list V) :=
      match d with [] => None | (k', v) :: d' => if Nat.eqb k k' then Some v else iget d' k end.
    Definition outer := nat -> option inner.
    Definition oset (o : outer) (k : nat) (v : option inner) : outer :=
      fun k' => if Nat.eqb k' k then v else o k'.

    (** :536-540 gather_inputs *)
    Definition gather_inputs (o : outer) (n : nat) : option (list (list V)) :=
      d <- o n ;;
      match previous_layer g n with
      | [] => v <- iget d n ;; Some [v]
      | ps => all_some (map (iget d) ps)
      end.
    (** :555-556 for successor in layer.next_layer: layer_inputs[succ][n] = out *)
    Fixpoint publish (o : outer) (n : nat) (out : list V) (succs : list nat) : option outer :=
      match succs with
      | [] => Some o
      | c :: cs => d <- o c ;; publish (oset o c (Some ((n, out) :: d))) n out cs
      end.
    (** :535-559 one iteration; the state is (layer_inputs, layer_output). *)
    Definition py_step (n : nat) (st : outer * list V) : option (outer * list V) :=
      d <- fst st n ;;
      if existsb (fun p => match iget d p with None => true | Some _ => false end) (previous_layer g n)
      then None                                          (* NotImplementedError *)
      else
        xs <- gather_inputs (fst st) n ;;
        let out := forward net n xs in
        o1 <- publish (fst st) n out (next_layer g n) ;;
        Some (oset o1 n None, out).                      (* del layer_inputs[n] *)
    Fixpoint py_loop (l : list nat) (st : outer * list V) : option (outer * list V) :=
      match l with
      | [] => Some st
      | n :: l' => st1 <- py_step n st ;; py_loop l' st1
      end.
    Definition compute_inference (s : schedule) (nn_input : list V) : option (list V) :=
      let x := pre net nn_input in
      let init : outer := fun i => if existsb (Nat.eqb i) (order s) then Some [(i, x)] else None in
      st <- py_loop (order s) (init, []) ;;
      Some (post net (snd st)).
  End OneNet.
End Net.
Arguments network : clear implicits.

(** ** Specification.  [val] gives every layer the value of its reference
    function on the values of the layers it reads; layers that read nothing
    see the network input. *)
Definition evaluates {V} (net : network V) (x : list V) (val : nat -> list V) : Prop :=
  forall n, In n (dnn (net_graph net)) ->
    val n = forward net n (match previous_layer (net_graph net) n with
                           | [] => [pre net x]
                           | ps => map val ps end).

(** What a layer's code must satisfy, whatever the layer: with its operands
    [xs] (of the sizes of its producers) in the arrays [srcs], the code leaves
    the value of the reference function in its own array; see [layer_ok]. *)
Definition layer_correct {V} (net : network V) (s : schedule) (in_size : Z) : Prop :=
  forall n srcs k, In n (order s) ->
    sources net s n = Some srcs -> dget (paths s) n = Some k ->
    match previous_layer (net_graph net) n with
    | [] => forall x, zlen x = in_size ->
        zlen (forward net n [pre net x]) = size net n /\
        layer_ok (code net n srcs (Out k)) [(NnIn, x)] (Out k) (temp_size net s) (path_size net s)
          (forward net n [pre net x])
    | ps => forall xs, map zlen xs = map (size net) ps ->
        zlen (forward net n xs) = size net n /\
        layer_ok (code net n srcs (Out k)) (combine srcs xs) (Out k) (temp_size net s) (path_size net s)
          (forward net n xs)
    end.

(** The output copy leaves [post] of the last tensor in [prediction]. *)
Definition output_correct {V} (net : network V) (s : schedule) : Prop :=
  forall k m x, dget (paths s) (last (order s) O) = Some k ->
    zlen x = size net (last (order s) O) -> holds m (Out k) x ->
    zlen (m NnOut) = size net (last (order s) O) ->
    exists m', output_code net (Out k) m = Some m' /\ m' NnOut = post net x /\ only m m' NnOut.
