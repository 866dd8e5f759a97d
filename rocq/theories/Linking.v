(** * What the generated files define and use, and the Makefile (C85).
    templates/*.tpl, generator/neural_network.py:251-323, 717-755. *)
From Coq Require Import String Ascii ZArith List Lia Bool.
Import ListNotations.
From Verif Require Import CMem Params Driver Hooks.
Open Scope Z_scope.
Open Scope list_scope.

(** ** Object files: the identifiers with external linkage a file defines and uses
    (those of the C library left out). *)
Record object_file := mkObject { o_file : string; o_defines : list string; o_uses : list string }.
Section Objects.
  Open Scope string_scope.
  Context {V : Type} (o : options) (normalize indirect : bool) (layers : list (player V)).
  (** templates/normalization/template_normalization_cst_in_global_var_file.c.tpl:2-8,
      used by the pre- and post-processing of inference.c *)
  Definition normalization_constants : list string :=
    if normalize then ["input_min"; "input_max"; "input_mean"; "input_range"; "output_mean"; "output_range"] else [].
  (** template_test_dataset_header.c.tpl:8: without extern when the input is read from a
      file, hence a definition in every file that includes test_dataset.h *)
  Definition header_inputs : list string := if o_ext o then ["nn_test_inputs"] else [].
  (** template_main_file.c.tpl:1-52 *)
  Definition main_o := mkObject "main.o" ("main" :: header_inputs) ["inference"; "Context"; "nn_test_inputs"].
  (** template_source_file.c.tpl; the arrays of the layers are those declared in
      inference.h (template_header_file.c.tpl:22-41) *)
  Definition inference_o := mkObject "inference.o" ["inference"] (map fst (flat_map externs layers) ++ normalization_constants).
  (** template_global_var_file.c.tpl:1-4; neural_network.py:1262-1265 *)
  Definition global_vars_o := mkObject "global_vars.o" ("Context" :: normalization_constants) [].
  (** template_parameter_file.c.tpl, or parameters.dat with its symbols
      (neural_network.py:1125-1160; template_makefile.tpl:32-34; the symbols
      _binary_..., added by objcopy too, are left out) *)
  Definition parameters_o := mkObject "parameters.o"
    ((if indirect then ["zero"] else []) ++ map fst (if o_bin o then flat_map bin_definitions layers else flat_map c_definitions layers)) [].
  (** template_train_hook_file.c.tpl *)
  Definition train_hook_o := mkObject "train_hook.o" (["batch_loop"; "copy_weights"; "save_weights"] ++ header_inputs)
    (["inference"; "Context"] ++ map fst (flat_map hook_params layers)).
  (** template_test_dataset_source.c.tpl, or test_dataset.dat with the symbol
      nn_test_inputs (template_makefile.tpl:28-30) *)
  Definition test_dataset_o := mkObject "test_dataset.o" ["nn_test_inputs"] [].
  (** The objects linked into the program ($(OBJ), template_makefile.tpl:24, for the
      target "generic") and into the library (:40-41). *)
  Definition program : list object_file :=
    [main_o; inference_o; global_vars_o; parameters_o; train_hook_o] ++ (if o_ext o then [] else [test_dataset_o]).
  Definition library : list object_file := [inference_o; parameters_o; train_hook_o; global_vars_o].
End Objects.

(** ** The Makefile. *)
Section Makefile.
  Open Scope string_scope.
  Definition contains (s sub : string) : bool := match index 0 sub s with Some _ => true | None => false end.
  (** $(SRC:.c=.o), template_makefile.tpl:23: the suffix .c of every word (names without blanks) *)
  Fixpoint to_object (s : string) : string :=
    if String.eqb s ".c" then ".o" else match s with String c r => String c (to_object r) | EmptyString => EmptyString end.
  (** custom_generation_functions in the form the code accepts (C52): category, file name,
      and whether the list of functions is non-empty. *)
  Definition customs := list (string * (string * bool)).
  Definition replaced (cs : customs) (k : string) : bool := existsb (fun c => String.eqb (fst c) k) cs.
  Definition custom_names (cs : customs) : list string := map (fun c => fst (snd c)) (filter (fun c => snd (snd c)) cs).
  (** select_generation_functions, neural_network.py:278-323: files_to_gen *)
  Definition selected_files (o : options) (cs : customs) : list string :=
    (if replaced cs "Main" then [] else ["main.c"; "test_dataset.h"])
    ++ (if replaced cs "Inference" then [] else ["inference.c"; "inference.h"; "global_vars.c"; "parameters.c"; "train_hook.c"])
    ++ (if replaced cs "Makefile" then [] else ["Makefile"])
    ++ (if o_ext o || replaced cs "TestValues" then [] else ["test_dataset.c"])
    ++ (if o_generic o || replaced cs "Target" then [] else ["target.c"; "target.h"])
    ++ custom_names cs.
  (** The files the functions write: with bin_dataset two of them have other names
      (neural_network.py:292, 660-662, 1153).  A custom function writes its file. *)
  Definition written_files (o : options) (cs : customs) : list string :=
    (if replaced cs "Main" then [] else ["main.c"; "test_dataset.h"])
    ++ (if replaced cs "Inference" then [] else ["inference.c"; "inference.h"; "global_vars.c"; if o_bin o then "parameters.dat" else "parameters.c"; "train_hook.c"])
    ++ (if replaced cs "Makefile" then [] else ["Makefile"])
    ++ (if o_ext o || replaced cs "TestValues" then [] else [if o_bin o then "test_dataset.dat" else "test_dataset.c"])
    ++ (if o_generic o || replaced cs "Target" then [] else ["target.c"; "target.h"])
    ++ custom_names cs.
  (** generate_makefile, neural_network.py:722-728 *)
  Definition source_files (fs : list string) : list string := filter (fun f => contains f ".c") fs.
  Definition header_files (fs : list string) : list string := filter (fun f => negb (contains f ".c") && contains f ".h") fs.
  (** What the targets $(EXEC) and $(EXEC).so need, template_makefile.tpl:23, 37-41 *)
  Definition prerequisites (fs : list string) : list string :=
    map to_object (source_files fs) ++ header_files fs ++ ["inference.c"; "parameters.o"; "train_hook.c"; "global_vars.c"].
  (** make can provide [f]: it is there, or there is a rule for it: the two of
      template_makefile.tpl:27-35 (which, in bin_dataset mode, take the place of the
      implicit one for their targets), or the implicit rule %.o: %.c. *)
  Inductive made (bin : bool) (present : list string) : string -> Prop :=
  | made_present f : In f present -> made bin present f
  | made_dataset : bin = true -> made bin present "test_dataset.dat" -> made bin present "test_dataset.o"
  | made_parameters : bin = true -> made bin present "parameters.dat" -> made bin present "parameters.o"
  | made_compiled b : (bin = true -> b <> "test_dataset" /\ b <> "parameters") -> made bin present (b ++ ".c") -> made bin present (b ++ ".o").
End Makefile.
