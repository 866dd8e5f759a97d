(** * Declarations and definitions of the parameter arrays: inference.h,
    parameters.c and parameters.dat. *)
From Coq Require Import String ZArith List Lia Bool.
Import ListNotations.
From Verif Require Import CMem.
Open Scope Z_scope.

Section Params.
  Context {V : Type}.
  (** The attributes of a layer the three generators look at; nb_weights,
      nb_biases, constant_size and patches_size are the sizes of the arrays
      (Conv2D.py:86-87, Dense.py:54-55, Gemm.py:85-86, BatchNormalization.py:62,
      Broadcast.py:63, constant.py:36-38, Conv2DGemm.py:36). *)
  Record player := mkPlayer {
    p_id : string;                        (* name and identifier, as in weights_<id> *)
    p_weights : option (list V);          (* weights *)
    p_layout : option (list V);           (* layout: Conv2Ddirect_block only *)
    p_constant : option (list V);         (* ConstantLayer.constant *)
    p_biases : option (list V);           (* biases *)
    p_patches : option (list V);          (* ppatches of Conv2DIndirectGemm *)
    p_norm : option (list V * list V * list V); (* mean, var, scale of BatchNormalization *)
    p_operand : option (list V)           (* constant operand of a Broadcast *)
  }.
  Definition sym (prefix : string) (l : player) : string := (prefix ++ p_id l)%string.
  (** an array with zero elements: the mustache section is skipped *)
  Definition entry {A} (o : option (list V)) (f : list V -> list A) : list A :=
    match o with Some ((_ :: _) as l) => f l | _ => [] end.
  Definition weights_of (l : player) : option (list V) :=
    match p_constant l with Some c => Some c | None => p_weights l end.

  (** extern declarations of inference.h: neural_network.py:1016-1050,
      templates/template_header_file.c.tpl:22-41 *)
  Definition externs (l : player) : list (string * Z) :=
    (entry (weights_of l) (fun w => [(sym "weights_" l, zlen w)])
     ++ entry (p_biases l) (fun b => [(sym "biases_" l, zlen b)])
     ++ entry (p_patches l) (fun b => [(sym "ppatches_" l, zlen b)])
     ++ match p_norm l with
        | Some (mean, var, scale) =>
            entry (Some mean) (fun _ => [(sym "mean_" l, zlen mean); (sym "var_" l, zlen mean); (sym "scale_" l, zlen mean)])
        | None => []
        end
     ++ entry (p_operand l) (fun b => [(sym "constant_" l, zlen b)])).
  (** definitions of parameters.c: neural_network.py:1174-1200,
      templates/template_parameter_file.c.tpl *)
  Definition c_definitions (l : player) : list (string * list V) :=
    (entry (weights_of l) (fun w => [(sym "weights_" l, w)])
     ++ entry (p_biases l) (fun b => [(sym "biases_" l, b)])
     ++ entry (p_patches l) (fun b => [(sym "ppatches_" l, b)])
     ++ match p_norm l with
        | Some (mean, var, scale) =>
            entry (Some mean) (fun _ => [(sym "mean_" l, mean); (sym "var_" l, var); (sym "scale_" l, scale)])
        | None => []
        end
     ++ entry (p_operand l) (fun b => [(sym "constant_" l, b)])).
  (** entries of the symbol table of parameters.dat: neural_network.py:1131-1147 *)
  Definition bin_definitions (l : player) : list (string * list V) :=
    (match p_constant l with
     | Some c => [(sym "weights_" l, c)]
     | None => match p_weights l with
               | Some w => [(sym "weights_" l, match p_layout l with Some lay => lay | None => w end)]
               | None => []
               end
     end
     ++ match p_biases l with Some b => [(sym "biases_" l, b)] | None => [] end
     ++ match p_norm l with
        | Some (mean, var, scale) => [(sym "mean_" l, mean); (sym "var_" l, var); (sym "scale_" l, scale)]
        | None => []
        end).
End Params.
Arguments player : clear implicits.
