(** * Properties C01-C07: scheduling and buffer allocation.
    Vocabulary: GraphSpec.v.  [tri_topo g = None] means that importing the
    model raises an exception. *)
From Coq Require Import List Arith Permutation.
Import ListNotations.
From Verif Require Import CMem Graph GraphSpec GraphProofs3 GraphProofs4.

(** C01. Repeated inputs are allowed here. *)
Theorem C01_layers_after_their_producers : forall g,
  linked g -> acyclic g -> constants_are_sources g -> no_constant_expression g ->
  (exists l, In l (dnn g) /\ is_constant g l = false) ->
  exists s, tri_topo g = Some s /\ Permutation (dnn g) (order s) /\ topological g (order s).
Proof.
  exact (fun g L A C N H => match tri_topo_total g L A C N H with
    | ex_intro _ s (conj E (conj P (conj T _))) => ex_intro _ s (conj E (conj P T)) end).
Qed.
Print Assumptions C01_layers_after_their_producers.

Example C01_example :
  linked ex_net /\ acyclic ex_net /\ constants_are_sources ex_net /\ no_constant_expression ex_net /\
  (exists l, In l (dnn ex_net) /\ is_constant ex_net l = false).
Proof.
  split; [|split; [|split; [|split]]].
  - apply of_edges_linked. reflexivity.
  - apply (of_edges_acyclic _ _ _ (fun i => nth i [0;1;1;2;2;3;0] 0)). reflexivity.
  - apply of_edges_constants. reflexivity.
  - apply (single_input_no_constant_expression _ 0); [apply of_edges_single_input | apply of_edges_constants]; reflexivity.
  - exists 0. split; [left|]; reflexivity.
Qed.

(** C02. The input layer is first, all constants follow it, nothing else is
    constant, and importing succeeds. *)
Theorem C02_input_first_and_no_exception : forall g inp,
  linked g -> acyclic g -> no_repeated_input g -> constants_are_sources g -> single_input g inp ->
  exists s tail, tri_topo g = Some s /\
    order s = inp :: filter (is_constant g) (order s) ++ tail /\
    Forall (fun i => is_constant g i = false) tail.
Proof. exact tri_topo_input_first'. Qed.
Print Assumptions C02_input_first_and_no_exception.

Example C02_example :
  linked ex_net /\ acyclic ex_net /\ no_repeated_input ex_net /\ constants_are_sources ex_net /\ single_input ex_net 0.
Proof.
  split; [|split; [|split; [|split]]].
  - apply of_edges_linked. reflexivity.
  - apply (of_edges_acyclic _ _ _ (fun i => nth i [0;1;1;2;2;3;0] 0)). reflexivity.
  - apply of_edges_no_repeat. repeat constructor; cbn; intuition congruence.
  - apply of_edges_constants. reflexivity.
  - apply of_edges_single_input. reflexivity.
Qed.

(** Without "every layer that reads something reads a non-constant", importing
    a perfectly linked acyclic model can raise the internal assertion. *)
Theorem C02_constant_expression_refuted : exists g,
  linked g /\ acyclic g /\ constants_are_sources g /\ no_repeated_input g /\
  is_constant g 0 = false /\ hd_error (dnn g) = Some 0 /\ tri_topo g = None.
Proof. exact constant_expression_fails. Qed.
Print Assumptions C02_constant_expression_refuted.

(** C03. *)
Theorem C03_needed_buffers_are_not_overwritten : forall g s,
  linked g -> acyclic g -> no_repeated_input g -> constants_are_sources g -> no_constant_expression g ->
  tri_topo g = Some s -> no_clobber g (order s) (dget (paths s)).
Proof. exact tri_topo_no_clobber. Qed.
Print Assumptions C03_needed_buffers_are_not_overwritten.

(** C04. Any assignment [f] of buffers to layers that never overwrites a needed
    tensor uses at least [max_path s] different buffers. *)
Theorem C04_number_of_buffers_is_minimal : forall g s,
  linked g -> acyclic g -> no_repeated_input g -> constants_are_sources g -> no_constant_expression g ->
  tri_topo g = Some s ->
  forall f : nat -> nat, no_clobber g (order s) f ->
    max_path s <= length (nodup Nat.eq_dec (map f (order s))).
Proof. exact tri_topo_minimal. Qed.
Print Assumptions C04_number_of_buffers_is_minimal.

(** The hypothesis on [f] is met by the trivial assignment. *)
Example C04_example : forall g ord, NoDup ord -> no_clobber g ord (fun i : nat => i).
Proof.
  intros g ord ND l1 p l2 n l3 E _ ->. rewrite E in ND. apply NoDup_remove_2 in ND.
  apply ND. apply in_or_app. right. apply in_or_app. right. left. reflexivity.
Qed.

(** C05. *)
Theorem C05_buffers_used_are_declared : forall g s,
  linked g -> acyclic g -> constants_are_sources g -> no_constant_expression g ->
  tri_topo g = Some s ->
  (forall i, In i (order s) -> exists k, dget (paths s) i = Some k /\ k < max_path s) /\
  (forall k, k < max_path s -> exists i, In i (order s) /\ dget (paths s) i = Some k).
Proof. exact tri_topo_declared. Qed.
Print Assumptions C05_buffers_used_are_declared.

(** C06. [output_str s p] is the array from which the readers of [p] take their
    operand.  It is a saved copy exactly when several layers read [p], and no
    layer [n] executed between [p] and one of its readers [c] writes that array. *)
Theorem C06_tensors_preserved_until_last_reader : forall g s,
  linked g -> acyclic g -> no_repeated_input g -> constants_are_sources g -> no_constant_expression g ->
  tri_topo g = Some s ->
  (forall p, In p (order s) ->
     ((exists k, output_str s p = Some (Cst k)) <-> 1 < length (next_layer g p)) /\
     exists b, output_str s p = Some b) /\
  (forall l1 p l2 n l3 c b,
     order s = l1 ++ p :: l2 ++ n :: l3 -> In c l3 -> In p (previous_layer g c) ->
     output_str s p = Some b ->
     (forall k, dget (paths s) n = Some k -> b <> Out k) /\
     (forall k, dget (csts s) n = Some k -> b <> Cst k)).
Proof. exact tri_topo_readable. Qed.
Print Assumptions C06_tensors_preserved_until_last_reader.

Example C06_example : exists s, tri_topo ex_net = Some s /\ output_str s 0 = Some (Cst 0) /\ output_str s 1 = Some (Out 0).
Proof. eexists. split; [vm_compute; reflexivity|]. split; reflexivity. Qed.

(** C07 is false: a layer that lists the same input twice frees its buffer
    twice, and the buffer is then given to two layers at once. *)
Theorem C07_repeated_input_refuted : exists g s,
  linked g /\ acyclic g /\ constants_are_sources g /\ single_input g 0 /\
  tri_topo g = Some s /\ ~ no_clobber g (order s) (dget (paths s)).
Proof. exact repeated_input_clobbers. Qed.
Print Assumptions C07_repeated_input_refuted.

Theorem C07_repeated_input_saved_refuted : exists g s,
  linked g /\ acyclic g /\ constants_are_sources g /\ single_input g 0 /\
  tri_topo g = Some s /\ ~ no_clobber_saved g (order s) (dget (csts s)).
Proof. exact repeated_input_clobbers_saved. Qed.
Print Assumptions C07_repeated_input_saved_refuted.
