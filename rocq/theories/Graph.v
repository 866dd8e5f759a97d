(** * Model of src/acetone_nnet/graph/graph_interpretor.py and of
    Layer.find_output_str (src/acetone_nnet/ir/layer.py:168-179).

    A layer object is identified by its [idx] (the functions modelled here
    compare layers only through [idx]); a graph gives, for each [idx], the
    attributes [previous_layer], [next_layer] and whether the layer is a
    ConstantLayer.  Exceptions are [None]. *)
From Coq Require Import List Arith Bool Lia.
Import ListNotations.
From Verif Require Import CMem.

Record graph := mkGraph {
  dnn : list nat;                       (* the importer's list of layers *)
  previous_layer : nat -> list nat;     (* Layer.previous_layer, by idx *)
  next_layer : nat -> list nat;         (* Layer.next_layer, by idx *)
  is_constant : nat -> bool             (* isinstance(_, ConstantLayer) *)
}.

Definition memb (x : nat) (l : list nat) : bool := existsb (Nat.eqb x) l.

(** graph_interpretor.py:58-71 parcours_prof_topo.  State: (sorted_layers,
    visited_layers).  [fuel] bounds the recursion depth; [None] when exhausted
    (proved impossible in GraphProofs). *)
Fixpoint parcours_prof_topo (nx : nat -> list nat) (fuel : nat)
    (st : list nat * list nat) (layer : nat) : option (list nat * list nat) :=
  match fuel with
  | O => None
  | S fuel' =>
    let '(srt, visited) := st in
    let visited := layer :: visited in
    match
      (fix go (l : list nat) (st : list nat * list nat) : option (list nat * list nat) :=
         match l with
         | [] => Some st
         | nxt :: l' =>
           if memb nxt (snd st) then go l' st
           else match parcours_prof_topo nx fuel' st nxt with
                | Some st' => go l' st'
                | None => None
                end
         end) (nx layer) (srt, visited)
    with
    | Some (srt', visited') => Some (layer :: srt', visited')   (* insert(0, layer) *)
    | None => None
    end
  end.

(** graph_interpretor.py:38-41: the loop over dnn. *)
Fixpoint sort_all (nx : nat -> list nat) (fuel : nat) (l : list nat)
    (st : list nat * list nat) : option (list nat * list nat) :=
  match l with
  | [] => Some st
  | x :: l' =>
    if memb x (snd st) then sort_all nx fuel l' st
    else match parcours_prof_topo nx fuel st x with
         | Some st' => sort_all nx fuel l' st'
         | None => None
         end
  end.

Definition depth_first_sort (g : graph) : option (list nat) :=
  match sort_all (next_layer g) (S (length (dnn g))) (dnn g) ([], []) with
  | Some (srt, _) => Some srt
  | None => None
  end.

(** graph_interpretor.py:42-49: constants are moved right after the first
    non-constant layer; other_layers[0] raises IndexError if there is none. *)
Definition hoist_constants (g : graph) (srt : list nat) : option (list nat) :=
  let constants := filter (is_constant g) srt in
  let other := filter (fun i => negb (is_constant g i)) srt in
  match other with
  | [] => None
  | o0 :: os => Some (o0 :: constants ++ os)
  end.

(** Python dicts with integer keys, as association lists. *)
Fixpoint dget (d : list (nat * nat)) (k : nat) : option nat :=
  match d with
  | [] => None
  | (k', v) :: d' => if Nat.eqb k k' then Some v else dget d' k
  end.
Definition dmem (d : list (nat * nat)) (k : nat) : bool :=
  match dget d k with Some _ => true | None => false end.

(** graph_interpretor.py:93-97: release the predecessors' indexes. *)
Fixpoint release (nx : nat -> list nat) (indexes : list (nat * nat)) (n : nat)
    (prevs : list nat) (avail : list nat) : option (list nat) :=
  match prevs with
  | [] => Some avail
  | p :: ps =>
    match dget indexes p with
    | None => None                                   (* assert p.idx in indexes *)
    | Some i =>
      if forallb (fun s => dmem indexes s || Nat.eqb s n) (nx p)
      then release nx indexes n ps (i :: avail)       (* appendleft *)
      else release nx indexes n ps avail
    end
  end.

Record alloc_state := mkAlloc {
  index_count : nat; available_indexes : list nat; indexes : list (nat * nat) }.

(** graph_interpretor.py:90-105: one iteration of the allocation loop. *)
Definition alloc_step (g : graph) (st : alloc_state) (n : nat) : option alloc_state :=
  if dmem (indexes st) n then None                   (* assert n.idx not in indexes *)
  else
    match release (next_layer g) (indexes st) n (previous_layer g n) (available_indexes st) with
    | None => None
    | Some [] =>        (* append(index_count); index_count += 1; popleft() *)
      Some (mkAlloc (S (index_count st)) [] ((n, index_count st) :: indexes st))
    | Some (i :: avail) =>
      Some (mkAlloc (index_count st) avail ((n, i) :: indexes st))
    end.

Fixpoint alloc_loop (g : graph) (order : list nat) (st : alloc_state) : option alloc_state :=
  match order with
  | [] => Some st
  | n :: order' =>
    match alloc_step g st n with
    | Some st' => alloc_loop g order' st'
    | None => None
    end
  end.

(** graph_interpretor.py:74-106 assign_liveliness_index; the result maps each
    layer to its [path]. *)
Definition assign_liveliness_index (g : graph) (order : list nat) : option (list (nat * nat)) :=
  match alloc_loop g order (mkAlloc 0 [] []) with
  | Some st => Some (indexes st)
  | None => None
  end.

(** graph_interpretor.py:119-123: release the saved copies of the parents. *)
Fixpoint release_cst (nx : nat -> list nat) (dict_cst : list (nat * nat)) (visited : list nat)
    (prevs : list nat) (avail : list nat) : list nat :=
  match prevs with
  | [] => avail
  | p :: ps =>
    match dget dict_cst p with
    | Some k =>
      if forallb (fun s => memb s visited) (nx p)
      then release_cst nx dict_cst visited ps (k :: avail)
      else release_cst nx dict_cst visited ps avail
    | None => release_cst nx dict_cst visited ps avail
    end
  end.

Record cst_state := mkCst {
  cst_count : nat; cst_avail : list nat; dict_cst : list (nat * nat); cst_visited : list nat }.

(** graph_interpretor.py:116-129: one iteration. *)
Definition cst_step (g : graph) (st : cst_state) (n : nat) : cst_state :=
  let visited := n :: cst_visited st in
  let avail := release_cst (next_layer g) (dict_cst st) visited (previous_layer g n) (cst_avail st) in
  if Nat.ltb 1 (length (next_layer g n)) then
    match avail with
    | [] => mkCst (S (cst_count st)) [] ((n, cst_count st) :: dict_cst st) visited
    | k :: avail' => mkCst (cst_count st) avail' ((n, k) :: dict_cst st) visited
    end
  else mkCst (cst_count st) avail (dict_cst st) visited.

(** graph_interpretor.py:109-130 assign_cst. *)
Definition assign_cst (g : graph) (order : list nat) : list (nat * nat) :=
  dict_cst (fold_left (cst_step g) order (mkCst 0 [] [] [])).

(** The allocation attached to a sorted network: order, path of each layer,
    dict_cst, and max_path (graph_interpretor.py:51-55). *)
Record schedule := mkSchedule {
  order : list nat;
  paths : list (nat * nat);
  csts : list (nat * nat);
  max_path : nat }.

(** graph_interpretor.py:28-55 tri_topo. *)
Definition tri_topo (g : graph) : option schedule :=
  match depth_first_sort g with
  | None => None
  | Some srt =>
    match hoist_constants g srt with
    | None => None
    | Some ord =>
      match assign_liveliness_index g ord with
      | None => None
      | Some ps => Some (mkSchedule ord ps (assign_cst g ord) (S (list_max (map snd ps))))
      end
    end
  end.

(** ir/layer.py:168-179 find_output_str: the array a consumer reads. *)
Definition output_str (s : schedule) (i : nat) : option bname :=
  match dget (csts s) i with
  | Some k => Some (Cst k)
  | None => match dget (paths s) i with Some p => Some (Out p) | None => None end
  end.
