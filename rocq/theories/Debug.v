(** * The debug mode: recorded tensors and the tools that compare them.
    generator/neural_network.py:204-206, 357-369 (load_debug_target), 488-591
    (compute_inference in debug mode), 884-885 and 909-921 with
    templates/template_source_file.c.tpl:19, 99-108 (the prints of the C code),
    and debug/debug_tools.py:27-147 (compare_result, reorder_outputs,
    extract_outputs_c, extract_outputs_python).
    Texts are lists of characters. [None] is a Python exception.
    Not modelled: the mode "time", running the reference frameworks
    (debug_onnx.py, debug_keras.py), the messages printed by compare_result. *)
From Coq Require Import String Ascii.
From Coq Require Import ZArith List Lia Bool.
Import ListNotations.
Open Scope list_scope.
Open Scope Z_scope.
From Verif Require Import CMem Tensor Graph Net Movement HexLit Compare.

Definition text := list ascii.
(** str(n) of a natural number. *)
Definition str (n : Z) : text := dec_digits (S (Z.to_nat n)) n.
(** int(t) of a text of digits (signs, blanks and underscores not modelled). *)
Definition py_int (t : text) : option Z :=
  match t with [] => None | _ => if forallb is_dec t then Some (number 10 t) else None end.
Definition label (name : text) (idx : nat) : text := name ++ " "%char :: str (Z.of_nat idx).

(** ** load_debug_target, neural_network.py:357-369; [layers] is self.layers[1:].
    targets[-1] = layer.idx raises IndexError on an empty list. *)
Fixpoint load_debug_target (keras : bool) (softmax : nat -> bool) (layers targets : list nat) : option (list nat) :=
  match layers with
  | [] => Some targets
  | n :: layers' =>
    if keras && softmax n
    then match targets with [] => None | _ => load_debug_target keras softmax layers' (removelast targets ++ [n]) end
    else load_debug_target keras softmax layers' (targets ++ [n])
  end.

Section Debug.
  Context {V : Type} (z : V) (net : network V).
  (** What the debug mode knows of a layer: its name, whether it is a
      ConstantLayer, and (output_channels, output_height, output_width) when
      data_format is channels_last and the layer has output_channels. *)
  Context (name : nat -> text) (constant : nat -> bool) (channels : nat -> option (Z * Z * Z)).
  Definition recorded (targets : list nat) (n : nat) : bool := existsb (Nat.eqb n) targets && negb (constant n).

  (** ** Python: neural_network.py:555-569. *)
  Definition flat (n : nat) (v : list V) : list V :=
    match channels n with Some (C, H, W) => to_last z C H W v | None => v end.
  Definition trace : Type := list (list V) * list text.
  Definition record (targets : list nat) (n : nat) (out : list V) (t : trace) : trace :=
    if recorded targets n then (fst t ++ [flat n out], snd t ++ [label (name n) n]) else t.
  Fixpoint py_loop_debug (targets l : list nat) (st : @outer V * list V) (t : trace) : option (@outer V * list V * trace) :=
    match l with
    | [] => Some (st, t)
    | n :: l' => st1 <- py_step net n st ;; py_loop_debug targets l' st1 (record targets n (snd st1) t)
    end.
  Definition one_inference (targets : list nat) (s : schedule) (nn_input : list V) : option trace :=
    let x := pre net nn_input in
    let init : @outer V := fun i => if existsb (Nat.eqb i) (order s) then Some [(i, x)] else None in
    r <- py_loop_debug targets (order s) (init, []) ([], []) ;; Some (snd r).
  (** :488-491 the lists are new for every input; :589-590 the last ones are
      returned (NameError without inputs). *)
  Fixpoint compute_inference_debug (targets : list nat) (s : schedule) (dataset : list (list V)) (t : option trace) : option trace :=
    match dataset with
    | [] => t
    | x :: dataset' => r <- one_inference targets s x ;; compute_inference_debug targets s dataset' (Some r)
    end.

  (** ** C: the tensors printed after the code of each layer (template lines
      99-108; Net.run_layer without the prints).  The array printed is read as
      [ctx->output_p]: as written, [output_p] is no name (see [in_scope]). *)
  Definition run_layer_debug (targets : list nat) (s : schedule) (m : mem V) (n : nat) : option (mem V * list (nat * list V)) :=
    srcs <- sources net s n ;;
    p <- dget (paths s) n ;;
    m1 <- code net n srcs (Out p) m ;;
    vs <- (if recorded targets n then vs <- all_some (tab (size net n) (rd m1 (Out p))) ;; Some [(n, vs)] else Some []) ;;
    m2 <- match dget (csts s) n with
          | Some k => copy_c (Out p) (Cst k) (size net n) m1
          | None => Some m1
          end ;;
    Some (m2, vs).
  Fixpoint run_layers_debug (targets : list nat) (s : schedule) (l : list nat) (m : mem V) : option (mem V * list (nat * list V)) :=
    match l with
    | [] => Some (m, [])
    | n :: l' => r <- run_layer_debug targets s m n ;; r' <- run_layers_debug targets s l' (fst r) ;; Some (fst r', snd r ++ snd r')
    end.

  (** The text printed: fprintf with the conversion "%.9g" given by [fmt]. *)
  Context (fmt : V -> text) (parse : text -> option V).
  Definition header (n : nat) : text :=
    name n ++ " "%char :: str (Z.of_nat n) ++ " "%char ::
    match channels n with
    | Some (C, H, W) => "1"%char :: " "%char :: str C ++ " "%char :: str H ++ " "%char :: str W
    | None => "0"%char :: [" "; " "; " "]%char
    end ++ [newline].
  (** the newline is printed by the last iteration of the loop *)
  Definition value_line (vs : list V) : text :=
    flat_map (fun v => fmt v ++ [" "%char]) vs ++ match vs with [] => [] | _ => [newline] end.
  Definition debug_file (printed : list (nat * list V)) : text :=
    flat_map (fun e => header (fst e) ++ value_line (snd e)) printed.

  (** ** debug_tools.py:100-135 extract_outputs_c. *)
  (** Iterating a text file: its lines, each with its newline. *)
  Fixpoint file_lines (f : text) : list text :=
    match f with
    | [] => []
    | c :: f' => if Ascii.eqb c newline then [c] :: file_lines f'
                 else match file_lines f' with l :: r => (c :: l) :: r | [] => [[c]] end
    end.
  Fixpoint remove_last (k : nat) (l : text) : text := match k with O => l | S k' => remove_last k' (removelast l) end.
  Record reading := mkReading { list_result : list (list V); targets_read : list text; to_transpose : bool; shape : Z * Z * Z }.
  Definition read_header (line : text) (r : reading) : option reading :=
    let w := split_on " " (remove_last 1 line) in
    a <- nth_error w 0 ;; b <- nth_error w 1 ;; tt <- nth_error w 2 ;; t <- py_int tt ;;
    if t =? 0 then Some (mkReading (list_result r) (targets_read r ++ [a ++ " "%char :: b]) false (shape r))
    else
      c1 <- nth_error w 3 ;; c2 <- nth_error w 4 ;; c3 <- nth_error w 5 ;;
      C <- py_int c1 ;; H <- py_int c2 ;; W <- py_int c3 ;;
      Some (mkReading (list_result r) (targets_read r ++ [a ++ " "%char :: b]) true (C, H, W)).
  Definition read_values (line : text) (r : reading) : option reading :=
    vs <- all_some (map parse (split_on " " (remove_last 2 line))) ;;
    if to_transpose r then
      match shape r with (C, H, W) =>
        if zlen vs =? C * H * W then Some (mkReading (list_result r ++ [to_last z C H W vs]) (targets_read r) true (shape r)) else None end
    else Some (mkReading (list_result r ++ [vs]) (targets_read r) false (shape r)).
  Fixpoint read_lines (i nb_targets : Z) (ls : list text) (r : reading) : option reading :=
    match ls with
    | [] => Some r
    | line :: ls' =>
      r' <- (if i mod 2 =? 0 then read_header line r else read_values line r) ;;
      if i =? 2 * nb_targets - 1 then Some r' else read_lines (i + 1) nb_targets ls' r'
    end.

  (** ** debug_tools.py:77-97 reorder_outputs. *)
  Definition key (t : text) : option Z := py_int (last (split_on " " t) []).
  Fixpoint set_item (k : Z) (e : list V * text) (d : list (Z * (list V * text))) : list (Z * (list V * text)) :=
    match d with [] => [(k, e)] | (k', e') :: d' => if k =? k' then (k, e) :: d' else (k', e') :: set_item k e d' end.
  Fixpoint dictionary (outputs : list (list V)) (targets : list text) (d : list (Z * (list V * text))) : option (list (Z * (list V * text))) :=
    match targets, outputs with
    | [], _ => Some d
    | t :: targets', o :: outputs' => k <- key t ;; dictionary outputs' targets' (set_item k (o, t) d)
    | _ :: _, [] => None                                       (* IndexError *)
    end.
  (** sorted by the keys (distinct in a dictionary) *)
  Fixpoint insert (e : Z * (list V * text)) (d : list (Z * (list V * text))) : list (Z * (list V * text)) :=
    match d with [] => [e] | e' :: d' => if fst e <=? fst e' then e :: d else e' :: insert e d' end.
  Definition sort_items (d : list (Z * (list V * text))) := fold_right insert [] d.
  Definition reorder_outputs (outputs : list (list V)) (targets : list text) : option trace :=
    d <- dictionary outputs targets [] ;;
    Some (map (fun e => fst (snd e)) (sort_items d), map (fun e => snd (snd e)) (sort_items d)).
  Definition extract_outputs_c (file : text) (nb_targets : Z) : option trace :=
    r <- read_lines 0 nb_targets (file_lines file) (mkReading [] [] false (0, 0, 0)) ;;
    reorder_outputs (list_result r) (targets_read r).

  (** ** debug_tools.py:138-147 extract_outputs_python. result_python[1][i][-1] is
      the last character of the label. *)
  Fixpoint matching (index : Z) (outs : list (list V)) (labels : list text) : option trace :=
    match labels, outs with
    | [], _ => Some ([], [])
    | t :: labels', o :: outs' =>
      c <- nth_error (rev t) 0 ;; d <- py_int [c] ;;
      r <- matching index outs' labels' ;;
      Some (if index =? d then (o :: fst r, t :: snd r) else r)
    | t :: labels', [] =>
      c <- nth_error (rev t) 0 ;; d <- py_int [c] ;;
      if index =? d then None else matching index [] labels'
    end.
  Fixpoint collect (indices : list Z) (result : trace) : option trace :=
    match indices with
    | [] => Some ([], [])
    | i :: indices' => a <- matching i (fst result) (snd result) ;; b <- collect indices' result ;; Some (fst a ++ fst b, snd a ++ snd b)
    end.
  Definition extract_outputs_python (result : trace) (indices : list Z) : option trace :=
    r <- collect indices result ;; reorder_outputs (fst r) (snd r).
End Debug.

(** ** debug_tools.py:27-75 compare_result. [close a b]: the test of
    numpy.testing.assert_allclose on two elements; arrays of different lengths
    fail it.  The result: correct, count and first (None: no error); [None]: more
    arrays than targets (IndexError), or no array in verbose mode (division by zero). *)
Section CompareResult.
  Context {V : Type} (close : V -> V -> bool).
  Definition allclose (a b : list V) : bool := (List.length a =? List.length b)%nat && forallb (fun p => close (fst p) (snd p)) (combine a b).
  Fixpoint compare_loop (acetone reference : list (list V)) (targets : list text) (correct : bool) (count : Z) (first : option text) : option (bool * Z * option text) :=
    match acetone, reference, targets with
    | [], _, _ => Some (correct, count, first)
    | a :: acetone', b :: reference', t :: targets' =>
      if allclose a b then compare_loop acetone' reference' targets' correct count first
      else compare_loop acetone' reference' targets' false (count + 1) (match first with None => Some t | Some _ => first end)
    | _, _, _ => None
    end.
  Definition compare_result (acetone reference : list (list V)) (targets : list text) (verbose : bool) : option (bool * Z * option text) :=
    if negb (List.length acetone =? List.length reference)%nat then Some (false, 0, None)
    else r <- compare_loop acetone reference targets true 0 None ;;
         if verbose && (List.length acetone =? 0)%nat then None else Some r.
End CompareResult.

(** ** Names in the generated code.  template_source_file.c.tpl:102 prints
    [output_p[k]] for the tensor of path p. *)
Definition printed_array (p : nat) : text := list_ascii_of_string "output_" ++ str (Z.of_nat p).
(** The names visible at that point of [inference] besides those of the system
    headers: its parameters and variables (template_source_file.c.tpl:12-83), the
    declarations of the header (template_header_file.c.tpl, with
    normalization/template_normalization_cst_in_header_file.c.tpl) and of target.h
    (orin-single-core/template_target_file.h.tpl).  The arrays output_p, cst_p
    and tensor_temp are members of inference_t: their names are used after [ctx->]. *)
Definition plain_names : list string :=
  ["inference"; "ctx"; "prediction"; "nn_input"; "fp"; "f"; "i"; "j"; "k"; "p"; "h"; "w"; "dotproduct"; "sum"; "max"; "count"; "x"; "y"; "x0"; "y0";
   "col_index"; "a"; "f_1"; "f0"; "f1"; "f2"; "s"; "y1"; "x1"; "f11"; "f12"; "f21"; "f22"; "position"; "reduced"; "start"; "end"; "difference";
   "counter_id"; "event_id"; "inference_t"; "MAX_BATCH_SIZE"; "Context"; "INFERENCE_H_"; "input_min"; "input_max"; "input_mean"; "input_range"; "output_mean"; "output_range";
   "__H_TARGET_H__"; "MC"; "KC"; "NC"; "MR"; "NR"; "min"; "packed_A"; "packed_B"; "pack_A"; "pack_B"; "sgemm_micro_kernel"; "sgemm_macro_kernel"]%string.
Definition numbered_names : list string :=
  ["weights_"; "biases_"; "ppatches_"; "mean_"; "var_"; "scale_"; "constant_"; "indice_Gather_"]%string.
Inductive in_scope : text -> Prop :=
  | scope_plain s : In s plain_names -> in_scope (list_ascii_of_string s)
  | scope_numbered s suffix : In s numbered_names -> in_scope (list_ascii_of_string s ++ suffix).
