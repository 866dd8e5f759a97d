(** * Specification of scheduling and buffer allocation, independent of the
    algorithms of Graph.v (only the [graph] record is used). *)
From Coq Require Import List Arith.
Import ListNotations.
From Verif Require Import Graph.

(** What an importer builds (parser_ONNX.py:124-141, parser_JSON.py:340-342):
    distinct identifiers, and for each use of [p] by [s] one entry in each of
    the two link lists. *)
Record linked (g : graph) : Prop := {
  ids_distinct : NoDup (dnn g);
  links_symmetric : forall p s, In p (dnn g) -> In s (dnn g) ->
    count_occ Nat.eq_dec (next_layer g p) s = count_occ Nat.eq_dec (previous_layer g s) p;
  links_closed : forall l i, In l (dnn g) ->
    In i (next_layer g l) \/ In i (previous_layer g l) -> In i (dnn g)
}.

Definition acyclic (g : graph) : Prop :=
  exists rank : nat -> nat,
    forall p s, In p (dnn g) -> In s (next_layer g p) -> rank p < rank s.

(** No layer uses the same tensor twice. *)
Definition no_repeated_input (g : graph) : Prop :=
  forall s, In s (dnn g) -> NoDup (previous_layer g s).

(** Constants read nothing; a layer that reads something reads at least one
    non-constant tensor. *)
Definition constants_are_sources (g : graph) : Prop :=
  forall c, In c (dnn g) -> is_constant g c = true -> previous_layer g c = [].

Definition no_constant_expression (g : graph) : Prop :=
  forall s, In s (dnn g) -> previous_layer g s <> [] ->
    exists p, In p (previous_layer g s) /\ is_constant g p = false.

(** [inp] is the only source besides the constants. *)
Definition single_input (g : graph) (inp : nat) : Prop :=
  hd_error (dnn g) = Some inp /\ is_constant g inp = false /\ previous_layer g inp = [] /\
  forall s, In s (dnn g) -> s <> inp -> is_constant g s = false ->
    exists p, In p (previous_layer g s) /\ is_constant g p = false.

(** Every layer comes after all the layers it reads. *)
Definition topological (g : graph) (ord : list nat) : Prop :=
  forall l1 s l2, ord = l1 ++ s :: l2 -> forall p, In p (previous_layer g s) -> In p l1.

(** The tensor of [p] is still needed after the current layer if one of the
    [later] layers reads it, or if nobody reads it (a network output). *)
Definition needed_after (g : graph) (p : nat) (later : list nat) : Prop :=
  next_layer g p = [] \/ exists s, In s later /\ In p (previous_layer g s).

(** [buf] never lets layer [n] write into the array of an earlier layer [p]
    whose tensor is needed after [n]. *)
Definition no_clobber {B : Type} (g : graph) (ord : list nat) (buf : nat -> B) : Prop :=
  forall l1 p l2 n l3, ord = l1 ++ p :: l2 ++ n :: l3 ->
    needed_after g p l3 -> buf p <> buf n.

(** Same for the saved copies, which only some layers have. *)
Definition no_clobber_saved (g : graph) (ord : list nat) (buf : nat -> option nat) : Prop :=
  forall l1 p l2 n l3 k, ord = l1 ++ p :: l2 ++ n :: l3 ->
    buf p = Some k -> (exists s, In s l3 /\ In p (previous_layer g s)) -> buf n <> Some k.
