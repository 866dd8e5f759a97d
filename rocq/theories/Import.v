(** * How the importers number and link layers.
    Only names, identifiers and links are modelled; the shapes, attributes and
    weights read by the creation functions are not. *)
From Coq Require Import String Ascii.
From Coq Require Import List Arith Bool.
Import ListNotations.
From Verif Require Import CMem Graph.
Notation "x <- e1 ;; e2" := (bind e1 (fun x => e2)) (at level 100, e1 at next level, right associativity).

(** ** Link lists: previous_layer and next_layer of every layer object. *)
Record links := mkLinks { lprev : nat -> list nat; lnext : nat -> list nat }.
Definition no_links : links := mkLinks (fun _ => []) (fun _ => []).
(** child.previous_layer.append(parent); parent.next_layer.append(child) *)
Definition connect (parent child : nat) (l : links) : links :=
  mkLinks (fun i => if Nat.eqb i child then lprev l i ++ [parent] else lprev l i)
          (fun i => if Nat.eqb i parent then lnext l i ++ [child] else lnext l i).

(** ** Python dictionaries with string keys. *)
Definition sdict := list (string * nat).
Fixpoint sget (d : sdict) (k : string) : option nat :=
  match d with [] => None | (k', v) :: d' => if String.eqb k k' then Some v else sget d' k end.
Definition sset (d : sdict) (k : string) (v : nat) : sdict := (k, v) :: d.
Definition sdel (d : sdict) (k : string) : sdict := filter (fun e => negb (String.eqb k (fst e))) d.

(** ** ONNX, importers/ONNX_importer/parser_ONNX.py:62-155. *)
Inductive onnx_node :=
(** A creation function that records a list of input names (dict_input[idx]).
    create_layer.py: all of node.input (softmax :244, concat :341, transpose :730,
    GlobalAveragePool :1136, Max, Min, Mean :1343-1395, Add :1187, MatMul :671, ...), the first
    input only (Conv :278, BatchNormalization :693, activations :1449, ...), or those
    that are not initialisers (Div :1217, Mul :1262, Sub :1305). *)
| OLayer (inputs : list string) (output : string)
(** Tile :754 and ReduceSum/Max/Min/Mean/Prod :787,841,895,949,1003:
    dict_input[idx] = node.input[0], which is a string, not a list. *)
| OString (input output : string)
(** create_layer.py:1512-1518 bypass (Dropout, Reshape, Flatten, ...) *)
| OBypass (input output : string)
(** create_layer.py:1521-1531 (Constant): adds an initialiser to the model *)
| OConstant (output : string)
| OUnsupported.
Record onnx_model := mkOnnx {
  o_inputs : list string; o_initializers : list string; o_nodes : list onnx_node }.

(** Iterating over a Python string gives its one-character strings. *)
Definition chars (s : string) : list string := map (fun c => String c EmptyString) (list_ascii_of_string s).

Record onnx_state := mkOState { o_count : nat; o_out : sdict; o_in : list (nat * list string) }.
(** parser_ONNX.py:90-92 *)
Fixpoint onnx_inputs (names : list string) (st : onnx_state) : onnx_state :=
  match names with
  | [] => st
  | i :: rest => onnx_inputs rest (mkOState (S (o_count st)) (sset (o_out st) i (o_count st)) (o_in st))
  end.
(** parser_ONNX.py:107-125; dict_input keeps insertion order *)
Definition onnx_step (st : onnx_state) (nd : onnx_node) : option onnx_state :=
  match nd with
  | OLayer ins out => Some (mkOState (S (o_count st)) (sset (o_out st) out (o_count st)) (o_in st ++ [(o_count st, ins)]))
  | OString s out => Some (mkOState (S (o_count st)) (sset (o_out st) out (o_count st)) (o_in st ++ [(o_count st, chars s)]))
  | OBypass i out => k <- sget (o_out st) i ;; Some (mkOState (o_count st) (sset (sdel (o_out st) i) out k) (o_in st))
  | OConstant _ => Some st
  | OUnsupported => None
  end.
Fixpoint onnx_steps (st : onnx_state) (nds : list onnx_node) : option onnx_state :=
  match nds with [] => Some st | nd :: r => st1 <- onnx_step st nd ;; onnx_steps st1 r end.

(** State of the linking loop: number of layers, dict_output, links, constant
    layers with the name of their initialiser. *)
Record link_state := mkLState { l_count : nat; l_out : sdict; l_links : links; l_consts : list (nat * string) }.
(** parser_ONNX.py:132-146; init_dict[input_name] raises KeyError *)
Definition onnx_link_one (inits : list string) (layer : nat) (st : link_state) (name : string) : option link_state :=
  match sget (l_out st) name with
  | Some p => Some (mkLState (l_count st) (l_out st) (connect p layer (l_links st)) (l_consts st))
  | None =>
    if existsb (String.eqb name) inits
    then Some (mkLState (S (l_count st)) (sset (l_out st) name (l_count st)) (connect (l_count st) layer (l_links st))
                 (l_consts st ++ [(l_count st, name)]))
    else None
  end.
Fixpoint onnx_link_inputs (inits : list string) (layer : nat) (st : link_state) (names : list string) : option link_state :=
  match names with [] => Some st | n :: r => st1 <- onnx_link_one inits layer st n ;; onnx_link_inputs inits layer st1 r end.
(** parser_ONNX.py:128-146 *)
Fixpoint onnx_link (inits : list string) (st : link_state) (din : list (nat * list string)) : option link_state :=
  match din with [] => Some st | (k, names) :: r => st1 <- onnx_link_inputs inits k st names ;; onnx_link inits st1 r end.

(** The layer list handed to tri_topo, and the constant layers. *)
Definition load_onnx (M : onnx_model) : option (graph * list (nat * string)) :=
  st <- onnx_steps (onnx_inputs (o_inputs M) (mkOState 0 [] [])) (o_nodes M) ;;
  l <- onnx_link (o_initializers M) (mkLState (o_count st) (o_out st) no_links []) (o_in st) ;;
  Some (mkGraph (seq 0 (l_count l)) (lprev (l_links l)) (lnext (l_links l))
          (fun i => existsb (fun e => Nat.eqb i (fst e)) (l_consts l)), l_consts l).

(** ** JSON, importers/JSON_importer/parser_JSON.py:88-361.
    Layer objects are numbered in order of creation; [jidx] is their idx. *)
Inductive json_layer :=
| JEnum (prevs : list nat) (softmax : bool)                (* Dense, Conv2D, pooling, Flatten: idx=idx *)
| JConf (idx : nat) (prevs : list nat) (softmax : bool)    (* Add, ..., ZeroPadding2D: idx=layer["config"]["idx"] *)
| JBatchNorm (prevs : list nat)                            (* :307-319: the new object is not assigned *)
| JSkip                                                    (* :321-326 continue *)
| JUnsupported.
Record json_state := mkJState {
  j_objects : nat; j_idx : nat -> nat; j_layers : list nat; j_links : links;
  j_softmax : nat; j_current : option nat }.
(** :328-330; layers[i] raises IndexError *)
Fixpoint json_connect (layers : list nat) (child : nat) (prevs : list nat) (l : links) : option links :=
  match prevs with
  | [] => Some l
  | i :: r => p <- nth_error layers i ;; json_connect layers child r (connect p child l)
  end.
Definition jset (f : nat -> nat) (k v : nat) : nat -> nat := fun i => if Nat.eqb i k then v else f i.
(** :328-353, [cur] being current_layer and [idx] the loop variable *)
Definition json_finish (st : json_state) (cur idx : nat) (prevs : list nat) (softmax : bool) : option json_state :=
  l1 <- json_connect (j_layers st) cur prevs (j_links st) ;;
  let layers := j_layers st ++ [cur] in
  if softmax then
    let s := j_objects st in
    Some (mkJState (S s) (jset (j_idx st) s (idx + 1)) (layers ++ [s]) (connect cur s l1) (S (j_softmax st)) (Some s))
  else Some (mkJState (j_objects st) (j_idx st) layers l1 (j_softmax st) (Some cur)).
(** :122-353: one iteration; [pos] is the index given by enumerate *)
Definition json_step (st : json_state) (pos : nat) (jl : json_layer) : option json_state :=
  let idx := pos + j_softmax st in
  let create i := mkJState (S (j_objects st)) (jset (j_idx st) (j_objects st) i) (j_layers st) (j_links st) (j_softmax st) (j_current st) in
  match jl with
  | JEnum prevs sm => json_finish (create idx) (j_objects st) idx prevs sm
  | JConf i prevs sm => json_finish (create i) (j_objects st) idx prevs sm
  | JBatchNorm prevs => c <- j_current st ;; json_finish st c idx prevs false      (* None: UnboundLocalError *)
  | JSkip => Some st
  | JUnsupported => None
  end.
Fixpoint json_steps (st : json_state) (pos : nat) (jls : list json_layer) : option json_state :=
  match jls with [] => Some st | jl :: r => st1 <- json_step st pos jl ;; json_steps st1 (S pos) r end.
(** The layers after the input layer (created as object 0 with idx 0; see
    [json_input_layer_call] for that call). *)
Definition load_json_layers (jls : list json_layer) : option json_state :=
  json_steps (mkJState 1 (fun _ => O) [O] no_links 0 None) 1 jls.
Definition json_graph (st : json_state) : graph :=
  mkGraph (map (j_idx st) (j_layers st)) (fun i => concat (map (fun o => if Nat.eqb (j_idx st o) i then map (j_idx st) (lprev (j_links st) o) else []) (nodup Nat.eq_dec (j_layers st))))
    (fun i => concat (map (fun o => if Nat.eqb (j_idx st o) i then map (j_idx st) (lnext (j_links st) o) else []) (nodup Nat.eq_dec (j_layers st)))) (fun _ => false).

(** Binding of positional arguments to a Python signature (name, has a default):
    TypeError (None) when a parameter without default gets no argument or when
    there are too many arguments. *)
Fixpoint bind_positional {A} (params : list (string * bool)) (args : list A) : option (list (string * option A)) :=
  match params, args with
  | [], [] => Some []
  | [], _ :: _ => None
  | (p, d) :: ps, a :: rest => r <- bind_positional ps rest ;; Some ((p, Some a) :: r)
  | (p, d) :: ps, [] => if d then r <- bind_positional ps (@nil A) ;; Some ((p, None) :: r) else None
  end.
(** generator/layers/input/Input.py:31-39 *)
Definition input_layer_params : list (string * bool) :=
  [("original_name"%string, false); ("idx"%string, false); ("size"%string, false); ("input_shape"%string, false); ("data_format"%string, false); ("gen_data_format"%string, true)].
(** parser_JSON.py:113-118: InputLayer(0, size, input_shape, data_format) *)
Definition json_input_layer_call {A} (zero size shape fmt : A) := bind_positional input_layer_params [zero; size; shape; fmt].

(** ** Keras, importers/H5_importer/parser_h5.py:165-495. *)
Record keras_layer := mkKeras { kname : string; kskip : bool; ksoftmax : bool; kinputs : list string }.
Fixpoint find_name (n : string) (ls : list keras_layer) : option nat :=
  match ls with [] => None | l :: r => if String.eqb (kname l) n then Some O else k <- find_name n r ;; Some (S k) end.
(** :447-453, :455-461: for each input, the first k with model.layers[k].name = its name; layers[k] *)
Fixpoint keras_connect (model : list keras_layer) (layers : list nat) (child : nat) (ins : list string) (l : links) : option links :=
  match ins with
  | [] => Some l
  | n :: r =>
    match find_name n model with
    | None => keras_connect model layers child r l
    | Some k => p <- nth_error layers k ;; keras_connect model layers child r (connect p child l)
    end
  end.
(** State: idx of the layers in order of the list, links (by idx), number of softmax layers. *)
Record keras_state := mkKState { k_layers : list nat; k_links : links; k_softmax : nat }.
Definition keras_step (sequential : bool) (start : nat) (model : list keras_layer) (st : keras_state) (pos : nat) (kl : keras_layer) : option keras_state :=
  let idx := pos + 1 - start + k_softmax st in
  if kskip kl then Some st                                   (* :432-433 continue *)
  else
    l1 <- (if sequential then p <- nth_error (k_layers st) (idx - 1) ;; Some (connect p idx (k_links st))
           else keras_connect model (k_layers st) idx (kinputs kl) (k_links st)) ;;
    if ksoftmax kl then Some (mkKState (k_layers st ++ [idx; idx + 1]) (connect idx (idx + 1) l1) (S (k_softmax st)))
    else Some (mkKState (k_layers st ++ [idx]) l1 (k_softmax st)).
Fixpoint keras_steps (sequential : bool) (start : nat) (model : list keras_layer) (st : keras_state) (pos : nat) (kls : list keras_layer) : option keras_state :=
  match kls with [] => Some st | kl :: r => st1 <- keras_step sequential start model st pos kl ;; keras_steps sequential start model st1 (S pos) r end.
(** A functional model starts with its InputLayer (start = 1); a Sequential one
    may not (start = 0).  [model] is model.layers. *)
Definition load_keras (sequential : bool) (start : nat) (model : list keras_layer) : option keras_state :=
  keras_steps sequential start model (mkKState [O] no_links 0) start (skipn start model).

(** ** PyTorch, importers/PYTORCH_importer/parse_pytorch.py:115-295.
    layerdic maps node names to layers; a fused or bypassed node shares its
    input's layer. *)
Inductive torch_node :=
| TInput (name : string)
| TLayer (name : string) (args : list string)      (* linear, conv2d, add, cat, max_pool2d, adaptive_avg_pool2d *)
| TAlias (name arg : string)                       (* batch_norm, dropout, flatten *)
| TActivation (act : nat) (name arg : string).     (* relu, clamp: sets activation_function of the input's layer *)
Record torch_state := mkTState { t_count : nat; t_dic : sdict; t_links : links; t_act : nat -> option nat }.
Fixpoint torch_connect (d : sdict) (child : nat) (args : list string) (l : links) : option links :=
  match args with [] => Some l | a :: r => p <- sget d a ;; torch_connect d child r (connect p child l) end.
Definition torch_step (st : torch_state) (nd : torch_node) : option torch_state :=
  match nd with
  | TInput n => Some (mkTState (S (t_count st)) (sset (t_dic st) n (t_count st)) (t_links st) (t_act st))
  | TLayer n args => l <- torch_connect (t_dic st) (t_count st) args (t_links st) ;;
      Some (mkTState (S (t_count st)) (sset (t_dic st) n (t_count st)) l (t_act st))
  | TAlias n a => k <- sget (t_dic st) a ;; Some (mkTState (t_count st) (sset (t_dic st) n k) (t_links st) (t_act st))
  | TActivation f n a => k <- sget (t_dic st) a ;;
      Some (mkTState (t_count st) (sset (t_dic st) n k) (t_links st) (fun i => if Nat.eqb i k then Some f else t_act st i))
  end.
Fixpoint torch_steps (st : torch_state) (nds : list torch_node) : option torch_state :=
  match nds with [] => Some st | nd :: r => st1 <- torch_step st nd ;; torch_steps st1 r end.
Definition load_torch (nds : list torch_node) : option torch_state :=
  torch_steps (mkTState 0 [] no_links (fun _ => None)) nds.
