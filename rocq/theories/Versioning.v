(** * Implementation registries and selection: versioning/layer_factories.py,
    versioning/versioning.py, NN.select_layers_implementation. *)
From Coq Require Import String ZArith List Lia Bool.
Import ListNotations.
Open Scope Z_scope.

(** Implementation names: [None] is the default implementation. *)
Definition version := option string.
Definition version_eqb (a b : version) : bool :=
  match a, b with None, None => true | Some x, Some y => String.eqb x y | _, _ => false end.

Section Registry.
  Context {Variant : Type}.
  (** LayerFactory.implementations, a dictionary in insertion order
      (layer_factories.py:29-61). *)
  Definition factory := list (version * Variant).
  Fixpoint lookup (f : factory) (v : version) : option Variant :=
    match f with [] => None | (w, x) :: f' => if version_eqb w v then Some x else lookup f' v end.
  (** the key of sorted(), layer_factories.py:50: [lambda x: "a" if x[0] is None else x[0]] *)
  Definition sort_key (v : version) : string := match v with None => "a"%string | Some s => s end.
  (** sorted() is stable: an element goes after the elements with an equal key *)
  Fixpoint insert (e : version * Variant) (f : factory) : factory :=
    match f with
    | [] => [e]
    | e' :: f' => match String.compare (sort_key (fst e)) (sort_key (fst e')) with
                  | Lt => e :: f | _ => e' :: insert e f' end
    end.
  Definition py_sorted (f : factory) : factory := fold_left (fun acc e => insert e acc) f [].
  Inductive reply := KeyError | Done (f : factory).
  (** register_implementation, layer_factories.py:42-53 *)
  Definition register (f : factory) (v : version) (x : Variant) : reply :=
    match lookup f v with Some _ => KeyError | None => Done (py_sorted (f ++ [(v, x)])) end.
  (** list_implementations, layer_factories.py:37-40 *)
  Definition list_implementations (f : factory) : list string :=
    flat_map (fun e => match fst e with Some s => [s] | None => [] end) f.
  (** The registry after a sequence of registrations whose failures are caught. *)
  Definition attempt (f : factory) (r : version * Variant) : factory :=
    match register f (fst r) (snd r) with KeyError => f | Done f' => f' end.
  Definition history (rs : list (version * Variant)) : factory := fold_left attempt rs [].

  (** The dictionary [implemented] and register_factory, versioning.py:27-32;
      factories are shared objects (e.g. all the activation layers have the same
      one), named by numbers here. *)
  Definition implemented := list (string * nat).
  Fixpoint factory_of (d : implemented) (name : string) : option nat :=
    match d with [] => None | (n, f) :: d' => if String.eqb n name then Some f else factory_of d' name end.
  Definition register_factory (d : implemented) (name : string) (f : nat) : option implemented :=
    match factory_of d name with Some _ => None | None => Some (d ++ [(name, f)]) end.
End Registry.
Arguments factory : clear implicits.
Arguments reply : clear implicits.

Section Selection.
  Context {Body Attr : Type}.
  (** A layer: its identifier, type name, the attributes copied by [versioning]
      (path, next_layer, previous_layer, output_str, activation_function), the rest. *)
  Record vlayer := mkVLayer { v_idx : Z; v_name : string; v_attr : Attr; v_body : Body }.
  Definition variant := vlayer -> version -> vlayer.

  (** A request maps layer identifiers or type names to implementation names. *)
  Inductive vkey := ById (i : Z) | ByName (s : string).
  Definition requests := vkey -> option version.
  (** self.default_implementations, neural_network.py:195-197 *)
  Definition default_implementation (name : string) : version :=
    if String.eqb name "Conv2D" then Some "6loops"%string else None.
  (** dictionary assignment [d[k] = v] *)
  Fixpoint dict_set (d : list (Z * version)) (k : Z) (v : version) : list (Z * version) :=
    match d with
    | [] => [(k, v)]
    | (k', v') :: d' => if k =? k' then (k, v) :: d' else (k', v') :: dict_set d' k v
    end.
  (** select_layers_implementation, neural_network.py:342-355 *)
  Definition select (req : option requests) (layers : list vlayer) : list (Z * version) :=
    fold_left (fun sel l =>
      let sel1 := dict_set sel (v_idx l) (default_implementation (v_name l)) in
      match req with
      | None => sel1
      | Some r => match r (ById (v_idx l)) with
                  | Some v => dict_set sel1 (v_idx l) v
                  | None => match r (ByName (v_name l)) with
                            | Some v => dict_set sel1 (v_idx l) v
                            | None => sel1
                            end
                  end
      end) layers [].

  Context (factories : string -> option (factory variant)).   (* [implemented]; None: KeyError *)
  (** LayerFactory.__call__, layer_factories.py:55-61 and versioning.py:53-60 *)
  Definition rebuild (l : vlayer) (v : version) : option vlayer :=
    match factories (v_name l) with
    | None => None
    | Some f => match lookup f v with
                | None => None
                | Some x => let l' := x l v in Some (mkVLayer (v_idx l') (v_name l') (v_attr l) (v_body l'))
                end
    end.
  (** versioning, versioning.py:43-63: for each key, for each position; [None]: KeyError *)
  Fixpoint version_one (k : Z) (v : version) (layers : list vlayer) : option (list vlayer) :=
    match layers with
    | [] => Some []
    | l :: ls =>
        match (if v_idx l =? k then rebuild l v else Some l) with
        | None => None
        | Some l' => match version_one k v ls with None => None | Some ls' => Some (l' :: ls') end
        end
    end.
  Fixpoint versioning (layers : list vlayer) (sel : list (Z * version)) : option (list vlayer) :=
    match sel with
    | [] => Some layers
    | (k, v) :: sel' => match version_one k v layers with None => None | Some ls => versioning ls sel' end
    end.
End Selection.
Arguments vlayer : clear implicits.
Arguments variant : clear implicits.
