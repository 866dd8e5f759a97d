(** * The training hooks of the generated library (train_hook.c, C84):
    copy_weights, save_weights and batch_loop.
    generator/neural_network.py:443-470, templates/template_train_hook_file.c.tpl,
    templates/template_makefile.tpl:32-44. *)
From Coq Require Import String ZArith List Lia Bool.
Import ListNotations.
From Verif Require Import CMem Params Driver.
Open Scope Z_scope.

Section Hooks.
  Context {V : Type}.
  (** The arrays of a running program: name and contents. *)
  Definition memory : Type := string -> option (list V).
  (** The program's arrays before main: those its object files define. *)
  Definition loaded (defs : list (string * list V)) : memory :=
    fun s => match find (fun d => String.eqb (fst d) s) defs with Some d => Some (snd d) | None => None end.
  Definition set_array (m : memory) (s : string) (v : list V) : memory := fun t => if String.eqb t s then Some v else m t.

  (** The parameters of the hooks, in order: name and size (neural_network.py:451-460). *)
  Definition hook_params (l : player V) : list (string * Z) :=
    entry (p_weights l) (fun w => [(sym "weights_" l, zlen w)])
    ++ entry (p_constant l) (fun w => [(sym "weights_" l, zlen w)])
    ++ entry (p_biases l) (fun b => [(sym "biases_" l, zlen b)]).

  (** memcpy(name, model_name, size * sizeof(data_type)), template_train_hook_file.c.tpl:24.
      [None]: an access outside an array, or a write into an array that cannot be
      written.  The arrays of parameters.c are defined const (template_parameter_file.c.tpl:8, 12):
      writing them is undefined (C11 6.7.3); those of parameters.dat come from an
      object file made by objcopy, whose section keeps its flags when it is renamed. *)
  Definition memcpy (writable : bool) (m : memory) (p : string * Z) (src : list V) : option memory :=
    match m (fst p) with
    | Some old =>
        if writable && (snd p <=? zlen src) && (snd p <=? zlen old)
        then Some (set_array m (fst p) (firstn (Z.to_nat (snd p)) src ++ skipn (Z.to_nat (snd p)) old))
        else None
    | None => None
    end.
  (** copy_weights(model_...): one argument per parameter *)
  Fixpoint copy_weights (writable : bool) (ps : list (string * Z)) (args : list (list V)) (m : memory) : option memory :=
    match ps, args with
    | [], [] => Some m
    | p :: ps', a :: args' => m' <- memcpy writable m p a ;; copy_weights writable ps' args' m'
    | _, _ => None
    end.
  (** save_weights, template_train_hook_file.c.tpl:28-37: the elements written *)
  Fixpoint save_weights (ps : list (string * Z)) (m : memory) : option (list V) :=
    match ps with
    | [] => Some []
    | p :: ps' =>
        match m (fst p) with
        | Some v => if snd p <=? zlen v then r <- save_weights ps' m ;; Some (firstn (Z.to_nat (snd p)) v ++ r) else None
        | None => None
        end
    end.
End Hooks.
Arguments memory : clear implicits.

(** batch_loop, template_train_hook_file.c.tpl:7-18: the calls are those of main()
    (Driver.v); the call on row [r] is given &predictions[r * nn_output_size] and
    &nn_input[r * nn_input_size], pointers to float (4 bytes) whatever data_type,
    and uses [width] elements of [size] bytes from there. *)
Definition row_bytes (width size r : Z) : Z * Z := (4 * (r * width), 4 * (r * width) + size * width).
