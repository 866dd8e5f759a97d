(** * When the optimiser's fusions keep the meaning of a model. *)
From Coq Require Import ZArith List Lia Bool QArith.
Import ListNotations.
From Verif Require Import CMem Tensor Num Activation Conv Graph GraphSpec Net LayerKinds Pattern FuseValues.
From Verif Require Broadcast.
Open Scope nat_scope.

Section Safe.
  Context (N : num).

  (** Conditions on the imported model. *)
  Record fusion_safe (md : model N) (inp : nat) : Prop := {
    (** an activation layer is the only reader of a layer that can apply it *)
    fs_act : forall p n, In p (dnn (md_graph N md)) -> In n (dnn (md_graph N md)) ->
      is_activation_layer N (lk N md n) = true -> is_activation_layer N (lk N md p) = false ->
      lact N (md_layer N md p) = LinearAct ->
      previous_layer (md_graph N md) n = [p] -> next_layer (md_graph N md) p = [n] ->
      p <> inp /\ absorbs N (lk N md p) (lact N (md_layer N md n));
    (** no activation layer is the identity *)
    fs_nonlinear : forall n, In n (dnn (md_graph N md)) -> is_activation_layer N (lk N md n) = true ->
      lact N (md_layer N md n) <> LinearAct;
    (** a batch normalisation has the shape of its operand *)
    fs_bn_shape : forall p n C H W sc me va bi eps d, In p (dnn (md_graph N md)) -> In n (dnn (md_graph N md)) ->
      lk N md n = KBatchNorm N C H W sc me va bi eps -> previous_layer (md_graph N md) n = [p] ->
      lact N (md_layer N md p) = LinearAct -> out_channels N (lk N md p) = Some d -> d = (C, H, W);
    (** over the arithmetic of a field, when there is one to fuse *)
    fs_bn_field : forall p n, In p (dnn (md_graph N md)) -> In n (dnn (md_graph N md)) ->
      is_batchnorm N (lk N md n) = true -> previous_layer (md_graph N md) n = [p] ->
      is_conv2d N (lk N md p) = true -> lact N (md_layer N md p) = LinearAct -> field_laws N;
    (** a channels_last model does not end with an activation layer *)
    fs_last : md_last N md = true -> forall n, In n (dnn (md_graph N md)) -> next_layer (md_graph N md) n = [] ->
      is_activation_layer N (lk N md n) = false;
    (** no x * sigmoid(x) *)
    fs_silu : forall p n m, In p (dnn (md_graph N md)) -> In n (dnn (md_graph N md)) -> In m (dnn (md_graph N md)) ->
      is_activation_layer N (lk N md n) = true -> lact N (md_layer N md n) = Sigmoid ->
      previous_layer (md_graph N md) n = [p] -> next_layer (md_graph N md) n = [m] ->
      lact N (md_layer N md p) = LinearAct -> length (next_layer (md_graph N md) p) = 2 ->
      is_multiply N (lk N md m) = true -> length (previous_layer (md_graph N md) m) = 2 ->
      In m (next_layer (md_graph N md) p) -> False
  }.

  (** The classes whose forward function applies the fused activation. *)
  Definition forward_applies (k : kind N) : bool :=
    match k with
    | KDense _ _ _ _ _ | KMatMul _ _ _ _ _ | KGemm _ _ _ _ _ _ _ _ _ _ | KBatchNorm _ _ _ _ _ _ _ _ _
    | KConcat _ _ _ _ _ _ | KConv _ _ _ _ _ | KPad _ _ _ _ _ _ | KBroadcast _ _ _ _ _ => true
    | _ => false
    end.
  Record python_safe (md : model N) : Prop := {
    ps_supported : python_supported N md;
    ps_act : forall p n, In p (dnn (md_graph N md)) -> In n (dnn (md_graph N md)) ->
      is_activation_layer N (lk N md n) = true -> is_activation_layer N (lk N md p) = false ->
      lact N (md_layer N md p) = LinearAct ->
      previous_layer (md_graph N md) n = [p] -> next_layer (md_graph N md) p = [n] ->
      forward_applies (lk N md p) = true
  }.
End Safe.
