(** * The implementation of the convolutions chosen by the user.
    CodeGenerator(versions=...): generator/neural_network.py:195-202 (default
    "6loops"), select_layers_implementation (325-355, Versioning.v) and
    versioning/versioning.py:43-63; the names are registered in
    generator/layers/convolution/Conv2D6loops.py:97-98, Conv2DStdGemm.py:155,
    Conv2DIndirectGemm.py:153.  The importers build Conv2D objects; the builders
    conv2d_6loops_implementation (Conv2D6loops.py:72-94),
    conv2d_std_gemm_implementation (Conv2DStdGemm.py:129-153) and
    conv2d_indirect_gemm_implementation (Conv2DIndirectGemm.py:126-150) pass all
    their attributes except [group] to the class of the implementation, and
    [versioning] copies path, links, output_str and activation function.
    Requests for other layer types and the other convolutions (direct_block,
    the transposed gemm variants) are not covered here. *)
From Coq Require Import String.
From Coq Require Import ZArith List Lia Bool QArith.
Import ListNotations.
Open Scope list_scope.
Open Scope Z_scope.
From Verif Require Import CMem Num Graph GraphSpec Net LayerKinds Conv Versioning.

(** The registered names; the default implementation (None) is 6loops. *)
Definition variant_named (v : version) : option conv_impl :=
  match v with
  | None => Some SixLoops
  | Some s => if String.eqb s "6loops" then Some SixLoops
              else if String.eqb s "std_gemm_nn" then Some StdGemmNN
              else if String.eqb s "indirect_gemm_nn" then Some IndirectGemmNN else None
  end.
(** neural_network.py:342-355 for the Conv2D layer number [n]. *)
Definition requested (versions : requests) (n : nat) : version :=
  match versions (ById (Z.of_nat n)) with
  | Some v => v
  | None => match versions (ByName "Conv2D") with Some v => v | None => default_implementation "Conv2D" end
  end.

Section OneModel.
  Context (N : num).
  (** The layer built by the implementation [impl] from a Conv2D object. *)
  Definition implemented_by (impl : conv_impl) (l : layer N) : layer N :=
    match lkind N l with KConv _ _ c w b => mkLayer N (KConv N impl c w b) (lact N l) | _ => l end.
  Definition with_impl (ch : nat -> conv_impl) (md : model N) : model N :=
    mkModel N (md_graph N md) (fun n => implemented_by (ch n) (md_layer N md n)) (md_last N md).
  (** The model generated with the argument [versions]; [None]: KeyError (or a
      variant that is not covered). *)
  Definition with_versions (versions : requests) (md : model N) : option (model N) :=
    if forallb (fun n => match lk N md n with
                         | KConv _ _ _ _ _ => match variant_named (requested versions n) with Some _ => true | None => false end
                         | _ => true
                         end) (dnn (md_graph N md))
    then Some (with_impl (fun n => match variant_named (requested versions n) with Some v => v | None => SixLoops end) md)
    else None.
End OneModel.

(** Where a variant is applicable (C15, C17): no dilation for the matrix
    products; the pointer table of the indirect one also needs the usual output
    sizes and either no padding or windows that together read every row and
    column of the image. *)
Definition usual_sizes (c : conv_params) : Prop :=
  0 < ih c /\ 0 < iw c /\ 0 < kh c /\ 0 < kw c /\ 0 < strides c /\ 0 <= pt c /\ 0 <= pl c /\ 0 <= pb c /\ 0 <= pr c /\
  oh c = (ih c + pt c + pb c - kh c) / strides c + 1 /\ ow c = (iw c + pl c + pr c - kw c) / strides c + 1.
Definition reads_every_pixel (c : conv_params) : Prop :=
  (forall i, 0 <= i < ih c -> exists y h, 0 <= y < oh c /\ 0 <= h < kh c /\ y * strides c + h = i + pt c) /\
  (forall j, 0 <= j < iw c -> exists x w, 0 <= x < ow c /\ 0 <= w < kw c /\ x * strides c + w = j + pl c).
Definition applicable (v : conv_impl) (c : conv_params) : Prop :=
  match v with
  | SixLoops => True
  | StdGemmNN => dilation c = 1
  | IndirectGemmNN => dilation c = 1 /\ usual_sizes c /\ (reads_every_pixel c \/ (pt c = 0 /\ pl c = 0 /\ pb c = 0 /\ pr c = 0))
  end.
