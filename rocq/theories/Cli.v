(** * The command line: src/acetone_nnet/cli/generate.py, importers/parser.py and
    the part of generator/neural_network.py that reads the command's options.
    [None] is an exception or an exit without any generated file. *)
From Coq Require Import String Ascii.
From Coq Require Import ZArith List Lia Bool.
Import ListNotations.
From Verif Require Import Versioning Driver.
Open Scope list_scope.
Open Scope Z_scope.

(** ** Options: cli/generate.py:80-158, one per add_argument; Help is added by
    argparse.  78: parser = argparse.ArgumentParser(description=...), whose
    defaults are prefix_chars "-", allow_abbrev True, exit_on_error True. *)
Inductive opt := Help | Model | Function | Output | DatasetSize | Dataset | Normalize | Conv | Optimization | Target | PageSize | BinDataset | Verbose.
Definition flag (o : opt) : string :=
  match o with
  | Help => "--help" | Model => "--model" | Function => "--function" | Output => "--output" | DatasetSize => "--dataset-size"
  | Dataset => "--dataset" | Normalize => "--normalize" | Conv => "--conv" | Optimization => "--optimization" | Target => "--target"
  | PageSize => "--target_page_size" | BinDataset => "--bin_dataset" | Verbose => "--verbose"
  end%string.
Definition options : list opt := [Help; Model; Function; Output; DatasetSize; Dataset; Normalize; Conv; Optimization; Target; PageSize; BinDataset; Verbose].
Definition opt_eqb (a b : opt) : bool := String.eqb (flag a) (flag b).

(** ** argparse (Python's library, not in /repo): how an argument is read,
    ArgumentParser._parse_optional and _get_option_tuples. *)
Inductive reading := Value | Option_ (o : opt) (explicit : option string) | Wrong.
Fixpoint split_equal (s : string) : option (string * string) :=
  match s with
  | EmptyString => None
  | String c r => if Ascii.eqb c "="%char then Some (EmptyString, r)
                  else match split_equal r with Some (a, b) => Some (String c a, b) | None => None end
  end.
Definition exact (s : string) : option opt :=
  if String.eqb s "-h" then Some Help else find (fun o => String.eqb (flag o) s) options.
Definition digit (c : ascii) : bool := let n := nat_of_ascii c in Nat.leb 48 n && Nat.leb n 57.
Fixpoint digits (s : string) : bool := match s with EmptyString => true | String c r => digit c && digits r end.
Fixpoint decimals (s : string) : bool :=      (* \d*\.\d+ *)
  match s with
  | EmptyString => false
  | String c r => if Ascii.eqb c "."%char then negb (String.eqb r "") && digits r else digit c && decimals r
  end.
(** '^-\d+$|^-\d*\.\d+$' *)
Definition negative_number (s : string) : bool :=
  match s with String c r => Ascii.eqb c "-"%char && (negb (String.eqb r "") && digits r || decimals r) | _ => false end.
Fixpoint has_space (s : string) : bool := match s with EmptyString => false | String c r => Ascii.eqb c " "%char || has_space r end.
Definition read_argument (s : string) : reading :=
  match s with
  | EmptyString => Value
  | String c r =>
      if negb (Ascii.eqb c "-"%char) then Value
      else match exact s with
      | Some o => Option_ o None
      | None =>
          if String.eqb r "" then Value
          else if String.eqb s "--" then Wrong       (* nothing may follow: there are no positional arguments *)
          else match match split_equal s with Some (a, b) => match exact a with Some o => Some (o, b) | None => None end | None => None end with
          | Some (o, b) => Option_ o (Some b)
          | None =>
              let '(name, explicit) := match split_equal s with Some (a, b) => (a, Some b) | None => (s, None) end in
              match (if prefix "--" s then filter (fun o => prefix name (flag o)) options else if prefix "-h" s then [Help] else []) with
              | [o] => Option_ o explicit
              | _ :: _ => Wrong                      (* ambiguous option *)
              | [] => if negative_number s then Value else if has_space s then Value else Wrong
              end
          end
      end
  end.
(** parse_known_args: consume_optional; an argument that is not the value of an
    option is unrecognised. *)
Fixpoint given (l : list string) : option (list (opt * string)) :=
  match l with
  | [] => Some []
  | s :: r =>
      match read_argument s with
      | Option_ Help _ => None                       (* prints the help and exits *)
      | Option_ Normalize None => match given r with Some l' => Some ((Normalize, EmptyString) :: l') | None => None end   (* store_true *)
      | Option_ Normalize (Some _) => None           (* ignored explicit argument *)
      | Option_ o (Some v) => match given r with Some l' => Some ((o, v) :: l') | None => None end
      | Option_ o None =>
          match r with
          | v :: r' => match read_argument v with
                       | Value => match given r' with Some l' => Some ((o, v) :: l') | None => None end
                       | _ => None
                       end
          | [] => None
          end
      | _ => None
      end
  end.

(** ** The values: type=pathlib.Path, int or bool, or a string. *)
Section Values.
  Variable int_of : string -> option Z.              (* int(s); ValueError *)
  (** Every occurrence of an option is converted, the last one is kept. *)
  Definition well_typed (p : opt * string) : bool :=
    match fst p with DatasetSize | PageSize => match int_of (snd p) with Some _ => true | None => false end | _ => true end.
  Fixpoint last_of (o : opt) (l : list (opt * string)) : option string :=
    match l with
    | [] => None
    | (o', v) :: r => match last_of o r with Some w => Some w | None => if opt_eqb o o' then Some v else None end
    end.
  (** bool(s) *)
  Definition truth (s : string) : bool := negb (String.eqb s "").
  Definition or_else {A} (o : option A) (d : A) : A := match o with Some a => a | None => d end.

  (** The arguments cli_acetone gives to CodeGenerator (28-64, 162-175). *)
  Record settings := mkSettings {
    st_model : string; st_function : string; st_output : string; st_samples : Z; st_dataset : option string;
    st_normalize : bool; st_conv : string; st_optimization : bool; st_target : string; st_page : Z;
    st_bin : bool; st_verbose : bool; st_hex : bool; st_first : bool }.
  Definition read_command (args : list string) : option settings :=
    match given args with
    | None => None
    | Some l =>
        if forallb well_typed l then
          match last_of Model l, last_of Function l, last_of Output l, last_of DatasetSize l with
          | Some m, Some f, Some out, Some n =>
              match int_of n, match last_of PageSize l with Some p => int_of p | None => Some 4096 end with
              | Some samples, Some page =>
                  Some (mkSettings m f out samples (last_of Dataset l)
                    (match last_of Normalize l with Some _ => true | None => false end)     (* 110-116: store_true *)
                    (or_else (last_of Conv l) "std_gemm_nn"%string)                            (* 117-121 *)
                    (match last_of Optimization l with Some v => truth v | None => false end) (* 122-126: a string, tested at neural_network.py:161 *)
                    (or_else (last_of Target l) "generic"%string) page                         (* 128-139 *)
                    (match last_of BinDataset l with Some v => truth v | None => false end)   (* 141-146: type=bool *)
                    (match last_of Verbose l with Some v => truth v | None => false end)      (* 148-153: type=bool *)
                    true true)                                                              (* 37, 42: to_hex, gen_data_format "channels_first" *)
              | _, _ => None
              end
          | _, _, _, _ => None
          end
        else None
    end.
End Values.

(** ** Which loader: importers/parser.py:43-100.  The file is a pathlib.Path. *)
Definition chars (s : string) : list ascii := list_ascii_of_string s.
Fixpoint components (l : list ascii) : list (list ascii) :=        (* l.split('/') *)
  match l with
  | [] => [[]]
  | c :: r => if Ascii.eqb c "/"%char then [] :: components r
              else match components r with p :: ps => (c :: p) :: ps | [] => [[c]] end
  end.
(** PurePosixPath.name: empty components and "." are dropped. *)
Definition kept (p : list ascii) : bool := match p with [] => false | [c] => negb (Ascii.eqb c "."%char) | _ => true end.
Definition path_name (l : list ascii) : list ascii := last (filter kept (components l)) [].
(** The last dot: what is before, what is after. *)
Fixpoint last_dot (l : list ascii) : option (list ascii * list ascii) :=
  match l with
  | [] => None
  | c :: r => match last_dot r with
              | Some (a, b) => Some (c :: a, b)
              | None => if Ascii.eqb c "."%char then Some ([], r) else None
              end
  end.
(** PurePath.suffix *)
Definition suffix (l : list ascii) : list ascii :=
  match last_dot (path_name l) with Some (_ :: _, c :: b) => "."%char :: c :: b | _ => [] end.
Definition last_four (l : list ascii) : list ascii := skipn (List.length l - 4) l.
Fixpoint starts (p l : list ascii) : bool :=
  match p, l with [], _ => true | a :: p', b :: l' => Ascii.eqb a b && starts p' l' | _, [] => false end.
Fixpoint inside (p l : list ascii) : bool := starts p l || match l with [] => false | _ :: l' => inside p l' end.
Inductive loader := JSON | ONNX | H5 | NNET.
(** 61-78; [minor]: the version of Python is 3.minor. *)
Definition choose_loader (minor : Z) (file : string) : option loader :=
  let e := last_four (suffix (chars file)) in
  if inside (chars "json") e then Some JSON
  else if inside (chars "onnx") e then Some ONNX
  else if (minor <? 12) && (10 <=? minor) && inside (chars "h5") e then Some H5
  else if inside (chars "nnet") e then Some NNET
  else None.

(** ** Calls: the parameters a call has to bind. *)
(** Python's rule for [npos] positional arguments and the keywords [kws], for a
    function whose parameters are [required] then [optional]. *)
Definition call_binds (required optional : list string) (npos : nat) (kws : list string) : bool :=
  let params := required ++ optional in
  let positional := firstn npos params in
  Nat.leb npos (List.length params) &&
  forallb (fun k => existsb (String.eqb k) params && negb (existsb (String.eqb k) positional)) kws &&
  forallb (fun r => existsb (String.eqb r) (positional ++ kws)) required.
(** generator/layers/input/Input.py:31-40 *)
Definition input_required : list string := ["original_name"; "idx"; "size"; "input_shape"; "data_format"]%string.
Definition input_optional : list string := ["gen_data_format"]%string.
(** importers/JSON_importer/parser_JSON.py:89-118: the fields of the
    description are read ([fields]: KeyError when one is missing), then the call
    InputLayer(0, size, input_shape, data_format) of 112-117.  [rest]: 119-354. *)
Definition load_json {File Fields Net} (fields : File -> option Fields) (rest : Fields -> option Net) (f : File) : option Net :=
  match fields f with
  | None => None
  | Some x => if call_binds input_required input_optional 4 [] then rest x else None
  end.

(** ** The command. *)
Section Generate.
  Context {Body Attr File Fields Normalizer : Type}.
  Notation net := (list (vlayer Body Attr)).
  Variable int_of : string -> option Z.
  Variable minor : Z.
  (** The file system and the loaders: the other properties are about them. *)
  Variable file_at : string -> option File.
  Variable json_fields : File -> option Fields.
  Variable json_rest : Fields -> option net.
  Variable load_onnx load_h5 : File -> option net.
  Variable load_nnet : File -> option (net * Normalizer).
  (** pattern_matcher.match *)
  Variable optimise : net -> net.
  (** Number of values the loader returns: parser_NNET.py:175-179; the other
      loaders have no [normalize] argument (parser.py:61-78). *)
  Definition returned (k : loader) (normalize : bool) : Z := match k with NNET => if normalize then 7 else 6 | _ => 6 end.
  Definition load (k : loader) (f : File) : option (net * option Normalizer) :=
    let plain o := match o with Some n => Some (n, None) | None => None end in
    match k with
    | JSON => plain (load_json json_fields json_rest f)
    | ONNX => plain (load_onnx f)
    | H5 => plain (load_h5 f)
    | NNET => match load_nnet f with Some (n, z) => Some (n, Some z) | None => None end
    end.
  (** What is generated: the network, its normaliser, the implementation chosen
      for each layer, the settings. *)
  Record job := mkJob { job_net : net; job_normalizer : option Normalizer; job_choice : list (Z * version); job_settings : settings }.
  (** versions={"Conv2D": conv_algorithm} (57) *)
  Definition conv_request (v : string) : requests :=
    fun k => match k with ByName n => if String.eqb n "Conv2D" then Some (Some v) else None | ById _ => None end.
  (** cli_acetone (28-68) and CodeGenerator.__init__ (neural_network.py:143-163,
      196-200): unpacking a tuple of another length raises ValueError. *)
  Definition acetone_generate (args : list string) : option job :=
    match read_command int_of args with
    | None => None
    | Some s =>
        match choose_loader minor (st_model s) with
        | None => None                                           (* TypeError *)
        | Some k =>
            match file_at (st_model s) with
            | None => None
            | Some f =>
                match load k f with
                | None => None
                | Some (n, z) =>
                    if returned k (st_normalize s) =? (if st_normalize s then 7 else 6) then
                      let n' := if st_optimization s then optimise n else n in
                      Some (mkJob n' (if st_normalize s then z else None) (select (Some (conv_request (st_conv s))) n') s)
                    else None
                end
            end
        end
    end.
  (** neural_network.py:284-313: the options that choose the files. *)
  Definition file_options (s : settings) : Driver.options := mkOptions (st_bin s) false (String.eqb (st_target s) "generic").
End Generate.
