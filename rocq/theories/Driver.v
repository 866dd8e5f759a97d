(** * The generated test driver, the test dataset and the file generation. *)
From Coq Require Import String ZArith List Lia Bool.
Import ListNotations.
From Verif Require Import CMem.
Open Scope Z_scope.

(** ** main(): the batch loop, templates/template_main_file.c.tpl:44-52.
    [nb] = nb_samples, [mx] = MAX_BATCH_SIZE. *)
Section Batches.
  Context (nb mx : Z).
  (** [int fin_bloc = j + MAX_BATCH_SIZE > nb_samples ? nb_samples % MAX_BATCH_SIZE : MAX_BATCH_SIZE;] (:45) *)
  Definition fin_bloc (j : Z) : Z := if j + mx >? nb then Z.rem nb mx else mx.

  (** One call [inference(&Context[ctx], predictions[row], nn_test_inputs[row])] (:49). *)
  Record call := mkCall { call_ctx : Z; call_row : Z }.
  (** the calls of the inner loop [for (i = 0; i < fin_bloc; ++i)] (:47-50) *)
  Definition block (j : Z) : list call := tab (fin_bloc j) (fun i => mkCall i (j + i)).

  (** [for (j = 0; j < nb_samples; j += MAX_BATCH_SIZE)] (:44) started at [j]
      executes the blocks [bs]. *)
  Inductive batch_loop : Z -> list (list call) -> Prop :=
  | bl_exit j : ~ j < nb -> batch_loop j []
  | bl_next j bs : j < nb -> batch_loop (j + mx) bs -> batch_loop j (block j :: bs).
End Batches.

(** ** The parallel loop (:46, #pragma omp parallel for): a block starts one
    thread per call; the threads share only constant data, each works on its own
    context and prediction row.  [step] is one atomic step of the generated
    inference function on the private state of its thread; [None]: returned.
    Simplification: data races on shared state do not exist because the model
    gives each thread its own context; [C35] shows that the contexts and rows of
    a block are pairwise distinct. *)
Section Threads.
  Context {L : Type} (step : L -> option L).
  (** any thread advances *)
  Inductive moves : list L -> list L -> Prop :=
  | mv_here l l' ls : step l = Some l' -> moves (l :: ls) (l' :: ls)
  | mv_later l ls ls' : moves ls ls' -> moves (l :: ls) (l :: ls').
  Inductive interleaved : list L -> list L -> Prop :=
  | il_refl ls : interleaved ls ls
  | il_step ls1 ls2 ls3 : moves ls1 ls2 -> interleaved ls2 ls3 -> interleaved ls1 ls3.
  (** a single thread run alone *)
  Inductive alone : L -> L -> Prop :=
  | al_refl l : alone l l
  | al_step l1 l2 l3 : step l1 = Some l2 -> alone l2 l3 -> alone l1 l3.
  Definition returned (l : L) : Prop := step l = None.
End Threads.

(** ** The whole main(): contexts, inputs and predictions are arrays; a block
    is executed in any interleaving of its threads, then its threads join. *)
Section Main.
  Context {Ctx X Y L : Type} (step : L -> option L).
  Context (start : Ctx -> X -> L) (ctx_of : L -> Ctx) (out_of : L -> Y).

  Fixpoint gather_opt {A} (l : list (option A)) : option (list A) :=
    match l with
    | [] => Some []
    | o :: l' => match o, gather_opt l' with Some x, Some xs => Some (x :: xs) | _, _ => None end
    end.
  (** initial states of the threads of a block; [None]: an index out of bounds *)
  Definition launch (ctxs : list Ctx) (inputs : list X) (b : list call) : option (list L) :=
    gather_opt (map (fun c => match rdl ctxs (call_ctx c), rdl inputs (call_row c) with
                              | Some k, Some x => Some (start k x) | _, _ => None end) b).
  Fixpoint join (ctxs : list Ctx) (preds : list Y) (b : list call) (ls : list L) : option (list Ctx * list Y) :=
    match b, ls with
    | [], [] => Some (ctxs, preds)
    | c :: b', l :: ls' =>
        match wrl ctxs (call_ctx c) (ctx_of l), wrl preds (call_row c) (out_of l) with
        | Some ctxs', Some preds' => join ctxs' preds' b' ls'
        | _, _ => None
        end
    | _, _ => None
    end.
  Inductive exec_blocks (inputs : list X) : list (list call) -> list Ctx * list Y -> list Ctx * list Y -> Prop :=
  | eb_done st : exec_blocks inputs [] st st
  | eb_block b bs ctxs preds ls ls' st1 st2 :
      launch ctxs inputs b = Some ls ->
      interleaved step ls ls' -> Forall (returned step) ls' ->
      join ctxs preds b ls' = Some st1 ->
      exec_blocks inputs bs st1 st2 ->
      exec_blocks inputs (b :: bs) (ctxs, preds) st2.
End Main.

(** ** Printing, template_main_file.c.tpl:62-77: one token per value, a newline
    after the last value of a row. *)
Inductive token {V} := Value (v : V) | Newline.
Arguments token : clear implicits.
Definition print_row {V} (width : Z) (row : list V) : option (list (token V)) :=
  for_ width (fun j acc => v <- rdl row j ;;
    Some (acc ++ Value v :: (if j =? width - 1 then [Newline] else []))) [].
Definition print_all {V} (nb width : Z) (preds : list (list V)) : option (list (token V)) :=
  for_ nb (fun i acc => row <- rdl preds i ;; t <- print_row width row ;; Some (acc ++ t)) [].

(** ** Datasets: neural_network.py:375-426. *)
Section Dataset.
  Context {Line Row : Type} (parse : Line -> option Row).   (* json.loads, c2data, dtype; None: an exception *)
  (** _load_dataset :416-425, [for i, line in enumerate(f)] *)
  Fixpoint load_loop (i : Z) (nb : Z) (lines : list Line) (acc : list Row) : option (list Row) :=
    match lines with
    | [] => Some acc
    | l :: ls => if i >=? nb then Some acc
                 else match parse l with Some r => load_loop (i + 1) nb ls (acc ++ [r]) | None => None end
    end.
  Definition load_dataset (nb : Z) (lines : list Line) : option (list Row) := load_loop 0 nb lines [].

  (** _initialise_dataset :375-403 and the number of tests kept in self.nb_tests;
      [random n]: n rows from the seeded generator. *)
  Inductive dataset := NoDataset | ArrayDataset (rows : list Row) | FileDataset (lines : list Line).
  Definition initialise (random : Z -> list Row) (d : dataset) (nb_tests : Z) : option (list Row * Z) :=
    match d with
    | NoDataset => Some (random nb_tests, nb_tests)
    | ArrayDataset rows => Some (rows, zlen rows)
    | FileDataset lines => match load_dataset nb_tests lines with Some r => Some (r, nb_tests) | None => None end
    end.
End Dataset.

(** ** File generation: neural_network.py:251-323, 757-772.
    A directory maps names to contents; a generated file is opened in append
    mode ("a+") or truncated ("w+") and some text is written. *)
Section Files.
  Open Scope string_scope.
  Definition dir := string -> option string.
  Definition set_file (d : dir) (f : string) (c : string) : dir := fun g => if String.eqb g f then Some c else d g.
  Inductive open_mode := Append | Truncate.
  Record write := mkWrite { w_file : string; w_mode : open_mode; w_text : string }.
  Definition do_write (d : dir) (w : write) : dir :=
    set_file d (w_file w)
      (match w_mode w, d (w_file w) with Append, Some c => c ++ w_text w | _, _ => w_text w end).

  Record options := mkOptions { o_bin : bool; o_ext : bool; o_generic : bool }.
  (** :284-313, file_names without custom generation functions *)
  Definition files_to_gen (o : options) : list string :=
    ["main.c"; "test_dataset.h"; "inference.c"; "inference.h"; "global_vars.c"; "parameters.c"; "train_hook.c"; "Makefile"]
    ++ (if o_ext o then [] else ["test_dataset.c"])
    ++ (if o_generic o then [] else ["target.c"; "target.h"]).
  (** The writes of the default generation functions, in order.  The modes are
      those of :640, :661, :674 (w+), :689, :753, :783, :796, :958, :1063, :1153
      (w+), :1208, :1260, :468; [text] gives the rendered text. *)
  Definition writes (o : options) (text : string -> string) : list write :=
    let a f := mkWrite f Append (text f) in
    let t f := mkWrite f Truncate (text f) in
    [a "main.c"; t "test_dataset.h"; a "inference.c"; a "inference.h"; a "global_vars.c";
     if o_bin o then t "parameters.dat" else a "parameters.c"; a "train_hook.c"; a "Makefile"]
    ++ (if o_ext o then [] else [if o_bin o then t "test_dataset.dat" else t "test_dataset.c"])
    ++ (if o_generic o then [] else [a "target.c"; a "target.h"]).

  Inductive outcome := Generated (d : dir) | FileExistsError (f : string) (d : dir).
  (** generate_c_files :757-772 *)
  Definition generate_c_files (o : options) (text : string -> string) (d : dir) : outcome :=
    match find (fun f => match d f with Some _ => true | None => false end) (files_to_gen o) with
    | Some f => FileExistsError f d
    | None => Generated (fold_left do_write (writes o text) d)
    end.
End Files.

(** ** custom_generation_functions, neural_network.py:316-320 and :765-772.
    Python values as far as needed: strings, generation functions (shown by what
    they write) and sequences (tuples or lists); a two-character string, which
    would also unpack, is not considered. *)
Inductive pyv := PStr (s : string) | PFun (w : list write) | PSeq (l : list pyv).
Inductive custom_outcome :=
| CustomValueError                                   (* unpacking fails: "expected 2" *)
| CustomTypeError                                    (* not a path / not callable *)
| CustomExists (f : string)                          (* FileExistsError *)
| CustomGenerated (d : dir).
Definition truthy (v : pyv) : bool :=
  match v with PStr s => negb (String.eqb s "") | PFun _ => true | PSeq l => negb (Nat.eqb (List.length l) 0) end.
(** [for f in generation_functions[k]: f(self, c_files_directory)] (:770-772) *)
Fixpoint call_all (l : list pyv) (d : dir) : option dir :=
  match l with
  | [] => Some d
  | PFun w :: l' => call_all l' (fold_left do_write w d)
  | _ :: _ => None
  end.
(** One entry [k: v] of the dictionary, from the constructor to generate_c_files. *)
Definition run_custom (v : pyv) (d : dir) : custom_outcome :=
  match v with
  | PSeq [name; fs] =>                                           (* name, generation_function = v *)
      if truthy fs
      then match name with
           | PStr f =>
               match d f with
               | Some _ => CustomExists f                        (* :765-767 *)
               | None => match fs with
                         | PSeq l => match call_all l d with Some d' => CustomGenerated d' | None => CustomTypeError end
                         | _ => CustomTypeError
                         end
               end
           | _ => CustomTypeError                                (* c_files_directory / name *)
           end
      else CustomGenerated d
  | _ => CustomValueError
  end.
