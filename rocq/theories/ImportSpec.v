(** * What an imported ONNX model should look like (independent of the
    importer's algorithm; only the description [onnx_model] is used). *)
From Coq Require Import String.
From Coq Require Import List Arith.
Import ListNotations.
From Verif Require Import Import.

(** Names defined by a node, and names it reads as layer inputs. *)
Definition node_outputs (nd : onnx_node) : list string :=
  match nd with OLayer _ o => [o] | OString _ o => [o] | OBypass _ o => [o] | OConstant o => [o] | OUnsupported => [] end.
Definition node_inputs (nd : onnx_node) : list string :=
  match nd with OLayer ins _ => ins | OString i _ => [i] | OBypass i _ => [i] | _ => [] end.
Definition makes_layer (nd : onnx_node) : bool :=
  match nd with OLayer _ _ | OString _ _ => true | _ => false end.
(** Number of layers created by a list of nodes. *)
Definition layers_in (nds : list onnx_node) : nat := length (filter makes_layer nds).

(** Tensor [name] is the output of layer number [k]: a graph input, the output of
    a node, or the result of an identity-like node applied to such a tensor. *)
Inductive output_of_layer (M : onnx_model) : string -> nat -> Prop :=
| from_input : forall before name after,
    o_inputs M = before ++ name :: after -> output_of_layer M name (length before)
| from_node : forall before ins name after,
    o_nodes M = before ++ OLayer ins name :: after ->
    output_of_layer M name (length (o_inputs M) + layers_in before)
| from_identity : forall before i name after k,
    o_nodes M = before ++ OBypass i name :: after -> output_of_layer M i k ->
    output_of_layer M name k.

(** Tensor [name] is held by layer [k]: an output as above, or the constant layer
    made for an initialiser. *)
Definition held_by (M : onnx_model) (constants : list (nat * string)) (name : string) (k : nat) : Prop :=
  output_of_layer M name k \/ (In name (o_initializers M) /\ In (k, name) constants).

(** An ONNX model the importer handles: names are defined once and before they
    are used, every operator is supported and is not one of Tile and Reduce*, a
    Constant node's output is not a layer input, and the input of an
    identity-like node is not an initialiser and is read by no other node. *)
Record importable (M : onnx_model) : Prop := {
  im_unique : NoDup (o_inputs M ++ flat_map node_outputs (o_nodes M));
  im_supported : forall nd, In nd (o_nodes M) -> match nd with OUnsupported | OString _ _ => False | _ => True end;
  im_ordered : forall before nd after name,
    o_nodes M = before ++ nd :: after -> In name (node_inputs nd) ->
    In name (o_inputs M) \/
    (exists p, In p before /\ In name (node_outputs p) /\ match p with OConstant _ => False | _ => True end) \/
    (In name (o_initializers M) /\ ~ In name (flat_map node_outputs (o_nodes M)) /\ match nd with OBypass _ _ => False | _ => True end);
  im_identity : forall before i o after nd,
    o_nodes M = before ++ OBypass i o :: after -> In nd (before ++ after) -> ~ In i (node_inputs nd)
}.

(** ** PyTorch *)
Definition torch_name (nd : torch_node) : string :=
  match nd with TInput n | TLayer n _ | TAlias n _ | TActivation _ n _ => n end.
Definition makes_torch_layer (nd : torch_node) : bool :=
  match nd with TInput _ | TLayer _ _ => true | _ => false end.
Definition torch_layers_in (nds : list torch_node) : nat := length (filter makes_torch_layer nds).
(** The value called [name] is held by layer number [k]: the layer made for the
    node, or, for an identity-like or activation node, the layer of its argument. *)
Inductive torch_held_by (nds : list torch_node) : string -> nat -> Prop :=
| torch_own : forall before nd after, nds = before ++ nd :: after -> makes_torch_layer nd = true ->
    torch_held_by nds (torch_name nd) (torch_layers_in before)
| torch_alias : forall before n a after k, nds = before ++ TAlias n a :: after ->
    torch_held_by nds a k -> torch_held_by nds n k
| torch_act : forall before f n a after k, nds = before ++ TActivation f n a :: after ->
    torch_held_by nds a k -> torch_held_by nds n k.
