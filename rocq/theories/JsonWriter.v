(** * The JSON files written from Keras models (C87).
    importers/JSON_importer/JSON_from_keras_model.py:47-182, read back by
    parser_JSON.py:88-361 (Import.v, as if its InputLayer call were valid: C46).
    Modelled: the links, the positions, the data format, the presence of biases.
    Simplification: config layers and keras_model.layers are in the same order
    (from [start] on), as Keras makes them. *)
From Coq Require Import String.
From Coq Require Import List Arith ZArith Bool Lia.
Import ListNotations.
From Verif Require Import CMem Tensor Graph Import.
Open Scope list_scope.

(** What the importer does with a layer's class (parser_JSON.py:139-326): identifier
    from enumerate, identifier from the file, BatchNormalization, ignored, unknown. *)
Inductive keras_class := WEnum | WConf | WBatchNorm | WSkip | WOther.
(** A layer of the model's configuration: its name, class, whether its activation
    is softmax, and for each of its calls the names of the layers it is applied to, in
    the order of its operands ("inbound_nodes": absent in a Sequential model, empty for
    an input). *)
Record entry := mkEntry { w_name : string; w_class : keras_class; w_softmax : bool; w_inbound : list (list string) }.

(** :121-128, the layer at position [idx] of the configuration. *)
Definition prev_layer_idx (start : nat) (layers : list entry) (idx : nat) (e : entry) : list Z :=
  match w_inbound e with
  | [] => [(Z.of_nat idx - 1)%Z]
  | call :: _ =>
      flat_map (fun p => match nth_error layers p with
        | Some q => flat_map (fun n => if String.eqb (w_name q) n then [Z.of_nat p] else []) call
        | None => [] end) (seq start (idx - start))
  end.
(** The entry read by the importer; the first layer of the file is its input layer. *)
Definition json_entry (start : nat) (layers : list entry) (idx : nat) (e : entry) : json_layer :=
  let prevs := map Z.to_nat (prev_layer_idx start layers idx e) in
  match w_class e with
  | WEnum => JEnum prevs (w_softmax e)
  | WConf => JConf idx prevs (w_softmax e)
  | WBatchNorm => JBatchNorm prevs
  | WSkip => JSkip
  | WOther => JUnsupported
  end.
Fixpoint json_entries (start : nat) (layers : list entry) (idx : nat) (l : list entry) : list json_layer :=
  match l with [] => [] | e :: r => json_entry start layers idx e :: json_entries start layers (S idx) r end.
(** Written (:77-182), then read (parser_JSON.py:122-353). *)
Definition write_and_read (start : nat) (layers : list entry) : option json_state :=
  load_json_layers (json_entries start layers 1 (tl layers)).

(** :55-59: the condition of the if is a generator object, which is true whatever it
    would yield. *)
Definition written_format (declared : string) : string :=
  let generator_is_true := true in
  if generator_is_true then "channels_last"%string else "channels_first"%string.
(** :93-97: (n, h, w, c) is written (n, c, h, w) when the format written is channels_last. *)
Definition written_shape (declared : string) (shape : list Z) : list Z :=
  match shape with
  | [n; h; w; c] => if String.eqb (written_format declared) "channels_last" then [n; c; h; w] else shape
  | _ => shape
  end.
(** :130-159: get_weights()[0] and get_weights()[1] of a Dense or Conv2D layer; the
    second does not exist without bias (IndexError). *)
Definition written_parameters {A} (get_weights : list A) : option (A * A) :=
  match nth_error get_weights 0, nth_error get_weights 1 with Some w, Some b => Some (w, b) | _, _ => None end.

Open Scope Z_scope.
(** np.moveaxis(x, 2, 0) on an array of dimensions [a; b; c] followed by dimensions of
    product r, row-major. *)
Definition moveaxis_2_0 {A} (d : A) (a b c r : Z) (x : list A) : list A :=
  tab3 c a (b * r) (fun k i q => nthZ d x (((i * b + q / r) * c + k) * r + q mod r)).
(** :130-159: np.expand_dims(-1) up to three dimensions, moveaxis, then
    np.expand_dims(axis=0) up to four; None: a kernel of another rank (Dense and Conv2D
    have none). *)
Definition written_kernel {A} (d : A) (shape : list Z) (x : list A) : option (list Z * list A) :=
  match shape with
  | [i; o] => Some ([1; 1; i; o], moveaxis_2_0 d i o 1 1 x)
  | [kh; kw; c; f] => Some ([c; kh; kw; f], moveaxis_2_0 d kh kw c f x)
  | _ => None
  end.
(** Conv2D.py:168-173 and dense/Dense.py:72: the constructors' check of the array's
    dimensions; otherwise ValueError. *)
Definition conv_accepts (filters channels kernel_h kernel_w : Z) (shape : list Z) : bool :=
  match shape with [a; b; c; e] => (a =? filters) && (b =? channels) && (c =? kernel_h) && (e =? kernel_w) | _ => false end.
Definition dense_accepts (units : Z) (shape : list Z) : bool := units =? last shape 0.
