(** * C87: writing a Keras model to JSON and reading it back. *)
From Coq Require Import String.
From Coq Require Import List Arith ZArith Bool Lia Permutation Sorted.
Import ListNotations.
From Verif Require Import CMem Tensor OnnxSpec Graph GraphSpec Import ImportSpec ImportProofs ImportOtherProofs PropertiesImport JsonWriter.
Open Scope nat_scope.
Open Scope list_scope.

Lemma entries_length start layers l : forall idx, length (json_entries start layers idx l) = length l.
Proof. induction l as [|e l IH]; intros idx; cbn; [reflexivity|]. rewrite IH. reflexivity. Qed.
Lemma entries_nth start layers l : forall idx i e, nth_error l i = Some e -> nth_error (json_entries start layers idx l) i = Some (json_entry start layers (idx + i) e).
Proof.
  induction l as [|a l IH]; intros idx [|i] e H; cbn in *; try discriminate.
  - injection H as ->. rewrite Nat.add_0_r. reflexivity.
  - rewrite (IH (S idx) i e H). f_equal. f_equal. lia.
Qed.
Lemma nth_middle_error {A} (b : list A) x a : nth_error (b ++ x :: a) (length b) = Some x.
Proof. rewrite nth_error_app2, Nat.sub_diag by lia. reflexivity. Qed.
(** Where no layer but the last has a softmax, no entry before the last has one. *)
Definition softmax_last (l : list entry) : Prop := Forall (fun e => w_softmax e = false) (removelast l).
Lemma softmax_before start layers l : softmax_last l -> forall idx before jl after, json_entries start layers idx l = before ++ jl :: after -> softmaxes before = 0.
Proof.
  induction l as [|e l IH]; intros H idx before jl after E; cbn in E; [destruct before; discriminate|].
  destruct before as [|b before]; [reflexivity|]. cbn in E. injection E as <- E. unfold softmax_last in *. cbn [removelast] in H. destruct l as [|e' l]; [destruct before; discriminate|].
  inversion H as [|x y H1 H2]; subst. specialize (IH H2 _ _ _ _ E). unfold softmaxes in *. cbn [filter]. unfold softmax_of, json_entry at 1. cbv zeta. rewrite H1. destruct (w_class e); cbn [length]; exact IH.
Qed.
Definition readable (e : entry) : Prop := w_class e = WEnum \/ w_class e = WConf.
Lemma prevs_readable start layers idx e : readable e -> prevs_of (json_entry start layers idx e) = map Z.to_nat (prev_layer_idx start layers idx e).
Proof. unfold json_entry. intros [-> | ->]; reflexivity. Qed.
Lemma consistent start first rest : Forall readable rest -> softmax_last rest ->
  (forall i e, nth_error rest i = Some e -> Forall (fun p => p < S i) (map Z.to_nat (prev_layer_idx start (first :: rest) (S i) e))) ->
  json_consistent (json_entries start (first :: rest) 1 rest).
Proof.
  intros R S P before jl after E. pose proof (softmax_before _ _ _ S _ _ _ _ E) as SB. rewrite SB, Nat.add_0_r.
  assert (N : nth_error (json_entries start (first :: rest) 1 rest) (length before) = Some jl) by (rewrite E; apply nth_middle_error).
  assert (HL : length before < length rest) by (rewrite <- (entries_length start (first :: rest) rest 1), E, app_length; cbn; lia).
  destruct (nth_error rest (length before)) as [e|] eqn:Ee; [|apply nth_error_None in Ee; lia]. pose proof (entries_nth start (first :: rest) rest 1 _ _ Ee) as N'. rewrite N in N'. injection N' as ->.
  assert (RE : readable e) by (rewrite Forall_forall in R; apply R; eapply nth_error_In; exact Ee). rewrite (prevs_readable _ _ _ _ RE). split.
  - unfold json_entry. destruct RE as [-> | ->]; cbn; [exact I|lia].
  - apply (P _ _ Ee).
Qed.
Lemma read_back start first rest : Forall readable rest -> softmax_last rest ->
  (forall i e, nth_error rest i = Some e -> Forall (fun p => p < S i) (map Z.to_nat (prev_layer_idx start (first :: rest) (S i) e))) ->
  exists st, write_and_read start (first :: rest) = Some st /\ linked (json_graph st) /\ acyclic (json_graph st) /\
    dnn (json_graph st) = seq 0 (1 + length rest + softmaxes (json_entries start (first :: rest) 1 rest)) /\
    previous_layer (json_graph st) 0 = [] /\
    (forall i e, nth_error rest i = Some e -> previous_layer (json_graph st) (S i) = map Z.to_nat (prev_layer_idx start (first :: rest) (S i) e) /\
      (w_softmax e = true -> previous_layer (json_graph st) (S (S i)) = [S i])).
Proof.
  intros R S P. destruct (C46_json_layers_partial _ (consistent start first rest R S P)) as (st & E & D & L & A & P0 & PK). exists st. split; [exact E|]. split; [exact L|]. split; [exact A|].
  rewrite entries_length in D. split; [exact D|]. split; [exact P0|]. intros i e Hi. pose proof (entries_nth start (first :: rest) rest 1 _ _ Hi) as N. cbn [plus] in N.
  destruct (nth_error_split _ _ N) as (b & a & Eb & Lb). specialize (PK b _ a Eb). cbv zeta in PK. rewrite (softmax_before _ _ _ S _ _ _ _ Eb), Nat.add_0_r, Lb in PK. destruct PK as (K1 & K2).
  assert (RE : readable e) by (rewrite Forall_forall in R; apply R; eapply nth_error_In; exact Hi). rewrite (prevs_readable _ _ _ _ RE) in K1. split; [exact K1|].
  intros Hs. apply K2. unfold json_entry. cbv zeta. rewrite Hs. destruct RE as [-> | ->]; reflexivity.
Qed.

(** A Sequential model of supported layers, of which only the last may have a softmax
    activation, is read back as the chain it is. *)
Theorem C87_sequential_partial : forall start first rest, Forall readable rest -> softmax_last rest ->
  Forall (fun e => w_inbound e = []) rest ->
  exists st n, write_and_read start (first :: rest) = Some st /\ linked (json_graph st) /\ acyclic (json_graph st) /\
    1 + length rest <= n /\ dnn (json_graph st) = seq 0 n /\ previous_layer (json_graph st) 0 = [] /\
    forall k, 1 <= k < n -> previous_layer (json_graph st) k = [k - 1].
Proof.
  intros start first rest R S NB.
  assert (PV : forall i e, nth_error rest i = Some e -> map Z.to_nat (prev_layer_idx start (first :: rest) (Datatypes.S i) e) = [i]).
  { intros i e Hi. rewrite Forall_forall in NB. unfold prev_layer_idx. rewrite (NB e) by (eapply nth_error_In; exact Hi). cbn [map]. f_equal. lia. }
  destruct (read_back start first rest R S) as (st & E & L & A & D & P0 & PK).
  { intros i e Hi. rewrite (PV i e Hi). constructor; [lia|constructor]. }
  set (sm := softmaxes (json_entries start (first :: rest) 1 rest)) in *. exists st, (1 + length rest + sm). split; [exact E|]. split; [exact L|]. split; [exact A|]. split; [lia|]. split; [exact D|]. split; [exact P0|].
  intros k Hk. destruct k as [|k]; [lia|]. replace (Datatypes.S k - 1) with k by lia. destruct (nth_error rest k) as [e|] eqn:Ee.
  - rewrite (proj1 (PK _ _ Ee)). apply PV. exact Ee.
  - apply nth_error_None in Ee.
    (* only the softmax of the last layer is left *)
    destruct rest as [|e0 rest0] eqn:Er; [subst sm; cbn in Hk; lia|]. destruct (exists_last (l := e0 :: rest0) ltac:(discriminate)) as (ini & la & El). rewrite El in *.
    assert (SM : sm = if w_softmax la then 1 else 0).
    { unfold sm. rewrite ?El. pose proof (entries_length start (first :: ini ++ [la]) (ini ++ [la]) 1) as LN. pose proof (entries_nth start (first :: ini ++ [la]) (ini ++ [la]) 1 (length ini) la (nth_middle_error _ _ _)) as NL.
      destruct (nth_error_split _ _ NL) as (b & a & Eb & Lb). pose proof (softmax_before _ _ _ S _ _ _ _ Eb) as SB. rewrite Eb. rewrite Eb in LN. rewrite !app_length in LN. cbn in LN. assert (a = []) as -> by (destruct a; [reflexivity|cbn in LN; lia]).
      assert (RL : readable la) by (rewrite Forall_forall in R; apply R, in_or_app; right; left; reflexivity).
      unfold softmaxes in *. rewrite filter_app, app_length, SB. cbn [filter]. unfold softmax_of, json_entry. cbv zeta. destruct RL as [-> | ->]; destruct (w_softmax la); reflexivity. }
    destruct (w_softmax la) eqn:Hs; [|rewrite app_length in *; cbn in *; lia].
    assert (k = length (ini ++ [la])) by (rewrite app_length in *; cbn in *; lia). subst k. rewrite app_length. cbn [length]. rewrite Nat.add_1_r.
    exact (proj2 (PK _ _ (nth_middle_error _ _ _)) Hs).
Qed.
Print Assumptions C87_sequential_partial.

(** ** Functional models. *)
Lemma flat_map_app_perm {A B} (f g : A -> list B) l : Permutation (flat_map (fun x => f x ++ g x) l) (flat_map f l ++ flat_map g l).
Proof.
  induction l as [|x l IH]; cbn; [constructor|]. rewrite <- !app_assoc. apply Permutation_app_head. eapply Permutation_trans; [apply Permutation_app_head; exact IH|]. rewrite !app_assoc. apply Permutation_app_tail. apply Permutation_app_comm.
Qed.
Lemma flat_map_const_nil {A B} (l : list A) : flat_map (fun _ => @nil B) l = [].
Proof. induction l; [reflexivity|exact IHl]. Qed.
(** The positions below n of one name, when names are distinct. *)
Lemma found layers name i n q : NoDup (map w_name layers) -> nth_error layers i = Some q -> w_name q = name -> i < n ->
  flat_map (fun p => match nth_error layers p with Some q => if String.eqb (w_name q) name then [Z.of_nat p] else [] | None => [] end) (seq 0 n) = [Z.of_nat i].
Proof.
  intros ND Hi Hq Hn. assert (SEQ : seq 0 n = seq 0 i ++ i :: seq (S i) (n - S i)) by (replace n with (i + S (n - S i)) at 1 by lia; rewrite seq_app; reflexivity).
  assert (NONE : forall l, (forall p, In p l -> p <> i) -> flat_map (fun p => match nth_error layers p with Some q => if String.eqb (w_name q) name then [Z.of_nat p] else [] | None => [] end) l = []).
  { induction l as [|p l IH]; intros H; [reflexivity|]. cbn [flat_map]. rewrite IH by (intros; apply H; right; assumption). rewrite app_nil_r. destruct (nth_error layers p) as [q'|] eqn:Ep; [|reflexivity].
    destruct (String.eqb_spec (w_name q') name) as [E|]; [|reflexivity]. exfalso. apply (H p (or_introl eq_refl)). rewrite NoDup_nth_error in ND. apply ND.
    - rewrite map_length. apply nth_error_Some. rewrite Ep. discriminate.
    - rewrite (map_nth_error w_name _ _ Ep), (map_nth_error w_name _ _ Hi). congruence. }
  rewrite SEQ, flat_map_app. cbn [flat_map]. rewrite Hi, Hq, String.eqb_refl, !NONE; [reflexivity| |]; intros p Hp; apply in_seq in Hp; lia.
Qed.
Lemma found_all layers n call : NoDup (map w_name layers) -> forall positions,
  Forall2 (fun i name => i < n /\ exists q, nth_error layers i = Some q /\ w_name q = name) positions call ->
  Permutation (flat_map (fun p => match nth_error layers p with Some q => flat_map (fun n => if String.eqb (w_name q) n then [Z.of_nat p] else []) call | None => [] end) (seq 0 n)) (map Z.of_nat positions).
Proof.
  intros ND. induction call as [|name call IH]; intros ps H; inversion H as [|i x ps' y (Hi & q & Hq & Hn) H']; subst.
  - cbn [map]. rewrite (flat_map_ext _ (fun _ => [])) by (intros p; destruct (nth_error layers p); reflexivity). rewrite flat_map_const_nil. constructor.
  - rewrite (flat_map_ext _ (fun p => match nth_error layers p with Some q0 => if String.eqb (w_name q0) (w_name q) then [Z.of_nat p] else [] | None => [] end ++
        match nth_error layers p with Some q0 => flat_map (fun n => if String.eqb (w_name q0) n then [Z.of_nat p] else []) call | None => [] end)) by (intros p; destruct (nth_error layers p); reflexivity).
    eapply Permutation_trans; [apply flat_map_app_perm|]. rewrite (found layers (w_name q) i n q ND Hq eq_refl Hi). cbn [map app]. constructor. apply IH. exact H'.
Qed.
(** What is found is in the order of the layers. *)
Lemma sorted_permutation : forall l l', StronglySorted le l -> StronglySorted le l' -> Permutation l l' -> l = l'.
Proof.
  induction l as [|a l IH]; intros l' S1 S2 P; [symmetry; apply Permutation_nil; exact P|]. destruct l' as [|b l']; [apply Permutation_sym, Permutation_nil in P; discriminate|].
  inversion S1 as [|? ? S1' F1]; subst. inversion S2 as [|? ? S2' F2]; subst. rewrite Forall_forall in F1, F2.
  assert (a = b) as ->.
  { assert (I1 : In a (b :: l')) by (apply (Permutation_in _ P); left; reflexivity). assert (I2 : In b (a :: l)) by (apply (Permutation_in _ (Permutation_sym P)); left; reflexivity).
    destruct I1 as [->|I1]; [reflexivity|]. destruct I2 as [<-|I2]; [reflexivity|]. apply F2 in I1. apply F1 in I2. lia. }
  f_equal. apply IH; [assumption|assumption|]. eapply Permutation_cons_inv. exact P.
Qed.
Lemma found_sorted (g : nat -> list Z) : (forall p x, In x (g p) -> x = Z.of_nat p) -> forall n s, StronglySorted le (map Z.to_nat (flat_map g (seq s n))).
Proof.
  intros G. induction n as [|n IH]; intros s; [constructor|]. cbn [seq flat_map]. rewrite map_app.
  assert (B : Forall (le s) (map Z.to_nat (flat_map g (seq (S s) n)))).
  { apply Forall_forall. intros y Hy. apply in_map_iff in Hy. destruct Hy as (x & <- & Hx). apply in_flat_map in Hx. destruct Hx as (p & Hp & Hx). apply in_seq in Hp. rewrite (G p x Hx). lia. }
  specialize (G s). induction (g s) as [|x l IHl]; [apply IH|]. cbn [map app]. rewrite (G x (or_introl eq_refl)), Nat2Z.id. constructor.
  - apply IHl. intros y Hy. apply G. right. exact Hy.
  - apply Forall_app. split; [|exact B]. apply Forall_forall. intros y Hy. apply in_map_iff in Hy. destruct Hy as (z & <- & Hz). rewrite (G z (or_intror Hz)). lia.
Qed.
Lemma prevs_sorted start layers idx e : StronglySorted le (map Z.to_nat (prev_layer_idx start layers idx e)).
Proof.
  unfold prev_layer_idx. destruct (w_inbound e) as [|call r]; [repeat constructor|]. apply found_sorted. intros p x Hx. destruct (nth_error layers p) as [q|]; [|destruct Hx].
  apply in_flat_map in Hx. destruct Hx as (n & _ & Hx). destruct (String.eqb (w_name q) n); [destruct Hx as [Hx|[]]; symmetry; exact Hx|destruct Hx].
Qed.
(** The operands of a layer, in order: the positions of the layers it is applied to. *)
Definition operands (layers : list entry) (k : nat) (e : entry) (positions : list nat) : Prop :=
  exists call, w_inbound e = [call] /\
    Forall2 (fun i name => i < k /\ exists q, nth_error layers i = Some q /\ w_name q = name) positions call.

(** A functional model of supported layers, each called once on earlier layers, of
    which only the last may have a softmax activation, is read back with the right
    layers behind each layer; they are in the right order just when the operands are in
    the order of the layers. *)
Theorem C87_functional_partial : forall first rest, NoDup (map w_name (first :: rest)) -> Forall readable rest -> softmax_last rest ->
  (forall i e, nth_error rest i = Some e -> exists positions, operands (first :: rest) (S i) e positions) ->
  exists st, write_and_read 0 (first :: rest) = Some st /\ linked (json_graph st) /\ acyclic (json_graph st) /\
    previous_layer (json_graph st) 0 = [] /\
    forall i e positions, nth_error rest i = Some e -> operands (first :: rest) (S i) e positions ->
      Permutation (previous_layer (json_graph st) (S i)) positions /\
      (previous_layer (json_graph st) (S i) = positions <-> StronglySorted le positions).
Proof.
  intros first rest ND R S OP.
  assert (PERM : forall i e positions, operands (first :: rest) (Datatypes.S i) e positions -> Permutation (map Z.to_nat (prev_layer_idx 0 (first :: rest) (Datatypes.S i) e)) positions).
  { intros i e ps (call & EI & F). unfold prev_layer_idx. rewrite EI, Nat.sub_0_r. pose proof (found_all _ _ _ ND ps F) as H. apply (Permutation_map Z.to_nat) in H. rewrite (map_map Z.of_nat) in H. rewrite (map_ext _ (fun x => x)) in H by (intros; apply Nat2Z.id). rewrite map_id in H. exact H. }
  destruct (read_back 0 first rest R S) as (st & E & L & A & _ & P0 & PK).
  { intros i e Hi. destruct (OP i e Hi) as (ps & Hps). pose proof (PERM i e ps Hps) as H. apply Forall_forall. intros p Hp. apply (Permutation_in _ H) in Hp.
    destruct Hps as (call & _ & F). clear - F Hp. induction F as [|i' n ps ns (B & _) F IH]; [destruct Hp|]. destruct Hp as [<-|Hp]; [exact B|exact (IH Hp)]. }
  exists st. split; [exact E|]. split; [exact L|]. split; [exact A|]. split; [exact P0|]. intros i e ps Hi Hps. rewrite (proj1 (PK i e Hi)). pose proof (PERM i e ps Hps) as H. split; [exact H|].
  pose proof (prevs_sorted 0 (first :: rest) (Datatypes.S i) e) as SO. split; [intros <-; exact SO|]. intros SP. apply sorted_permutation; assumption.
Qed.
Print Assumptions C87_functional_partial.

Open Scope string_scope.
(** The full claim: every layer of the network read back reads its operands in order. *)
Definition links_kept (model : list entry) : Prop := exists st, write_and_read 0 model = Some st /\
  forall i e positions, nth_error model i = Some e -> i > 0 -> operands model i e positions -> previous_layer (json_graph st) i = positions.
(** It fails when the operands of a subtraction are not in the order of the layers, *)
Theorem C87_order_refuted : exists st, let model := [mkEntry "x" WOther false []; mkEntry "a" WEnum false [["x"]]; mkEntry "b" WEnum false [["x"]]; mkEntry "b - a" WConf false [["b"; "a"]]] in
  write_and_read 0 model = Some st /\ operands model 3 (mkEntry "b - a" WConf false [["b"; "a"]]) [2; 1] /\ previous_layer (json_graph st) 3 = [1; 2] /\ ~ links_kept model.
Proof.
  eexists. cbv zeta. split; [reflexivity|]. assert (O : operands [mkEntry "x" WOther false []; mkEntry "a" WEnum false [["x"]]; mkEntry "b" WEnum false [["x"]]; mkEntry "b - a" WConf false [["b"; "a"]]] 3 (mkEntry "b - a" WConf false [["b"; "a"]]) [2; 1]).
  { eexists. split; [reflexivity|]. repeat constructor; try lia; eexists; split; reflexivity. }
  split; [exact O|]. split; [vm_compute; reflexivity|]. intros (st & E & H). injection E as <-. specialize (H 3 _ [2; 1] eq_refl ltac:(lia) O). vm_compute in H. discriminate.
Qed.
Print Assumptions C87_order_refuted.
(** when a layer is applied twice, *)
Theorem C87_shared_refuted : forall model k e call1 call2, nth_error model k = Some e -> w_inbound e = [call1; call2] ->
  json_entry 0 model k e = json_entry 0 model k (mkEntry (w_name e) (w_class e) (w_softmax e) [call1]).
Proof. intros model k e c1 c2 _ H. unfold json_entry, prev_layer_idx. rewrite H. reflexivity. Qed.
Print Assumptions C87_shared_refuted.
(** with a second input, which is linked to the layer before it and refused, *)
Theorem C87_inputs_refuted : forall first before input after, w_class input = WOther -> w_inbound input = [] ->
  prev_layer_idx 0 (first :: before ++ input :: after) (S (length before)) input = [Z.of_nat (length before)] /\
  write_and_read 0 (first :: before ++ input :: after) = None.
Proof.
  intros first before inp after C I. split; [unfold prev_layer_idx; rewrite I; f_equal; lia|]. unfold write_and_read, load_json_layers. cbn [tl]. generalize (mkJState 1 (fun _ => 0) [0] no_links 0 None). generalize 1 as pos.
  generalize (first :: before ++ inp :: after) as layers. intros layers. induction before as [|b before IH]; intros pos st; cbn [app json_entries json_steps].
  - unfold json_entry. rewrite C. reflexivity.
  - destruct (json_step st pos _) as [st1|]; [|reflexivity]. cbn [bind]. apply IH.
Qed.
Print Assumptions C87_inputs_refuted.
(** and behind a softmax activation that is not the last layer: the next layer reads
    the numbers before the softmax. *)
Theorem C87_softmax_refuted : exists st, write_and_read 1 [mkEntry "x" WOther false []; mkEntry "attention" WEnum true []; mkEntry "dense" WEnum false []] = Some st /\
  dnn (json_graph st) = [0; 1; 2; 3] /\ previous_layer (json_graph st) 2 = [1] /\ previous_layer (json_graph st) 3 = [1].
Proof. eexists. split; [reflexivity|]. repeat split; vm_compute; reflexivity. Qed.
Print Assumptions C87_softmax_refuted.

(** The data format is channels_last whatever the model: the dimensions of a
    channels_first tensor are written in another order. *)
Theorem C87_format_refuted : forall declared, written_format declared = "channels_last" /\
  forall n c h w, written_shape declared [n; c; h; w] = [n; w; c; h].
Proof. intros d. split; reflexivity. Qed.
Print Assumptions C87_format_refuted.
(** A Dense or Conv2D layer without bias (one weight array) is not written. *)
Theorem C87_bias_refuted : forall A (kernel : A), written_parameters [kernel] = None /\ forall bias, written_parameters [kernel; bias] = Some (kernel, bias).
Proof. intros. split; reflexivity. Qed.
Print Assumptions C87_bias_refuted.

(** ** The weights. *)
Close Scope string_scope.
Open Scope Z_scope.
Lemma nth_moved {A} (d : A) a b c r x k i j q : 0 <= k < c -> 0 <= i < a -> 0 <= j < b -> 0 <= q < r ->
  nthZ d (moveaxis_2_0 d a b c r x) ((k * a + i) * (b * r) + (j * r + q)) = nthZ d x (((i * b + j) * c + k) * r + q).
Proof.
  intros. replace ((k * a + i) * (b * r) + (j * r + q)) with (idx3 a (b * r) k i (j * r + q)) by (unfold idx3; ring).
  change (nthZ d _ _) with (at3 d a (b * r) (moveaxis_2_0 d a b c r x) k i (j * r + q)) at 1. unfold moveaxis_2_0. rewrite at3_tab3 by nia.
  assert (E1 : (j * r + q) / r = j) by (rewrite Z.div_add_l, Z.div_small by lia; lia).
  assert (E2 : (j * r + q) mod r = q) by (rewrite Z.add_comm, Z.mod_add by lia; apply Z.mod_small; lia).
  rewrite E1, E2. reflexivity.
Qed.
(** The kernel of a Dense layer is accepted by the importer and read as it was. *)
Theorem C87_dense : forall A (d : A) i o (kernel : list A), exists shape w, written_kernel d [i; o] kernel = Some (shape, w) /\
  dense_accepts o shape = true /\
  forall a b, 0 <= a < i -> 0 <= b < o -> el d shape w [0; 0; a; b] = el d [i; o] kernel [a; b].
Proof.
  intros A d i o kernel. do 2 eexists. split; [reflexivity|]. split; [apply Z.eqb_refl|]. intros a b Ha Hb. unfold el. cbn [offset prod].
  replace (0 * (1 * (i * (o * 1))) + (0 * (i * (o * 1)) + (a * (o * 1) + (b * 1 + 0)))) with ((0 * i + a) * (o * 1) + (b * 1 + 0)) by ring. rewrite nth_moved by lia. f_equal. ring.
Qed.
Print Assumptions C87_dense.
(** The kernel of a convolution, whose element for output channel f and input channel c
    is kernel[i, j, c, f] in Keras and weights[f, c, i, j] in the importer, is accepted
    only if the number of channels, of filters and the sizes of the kernel are all the
    same; then the element read is kernel[c, i, f, j], another one. *)
Theorem C87_convolution_refuted : forall A (d : A) kh kw c f (kernel : list A), exists shape w, written_kernel d [kh; kw; c; f] kernel = Some (shape, w) /\
  (conv_accepts f c kh kw shape = true <-> c = f /\ kh = f /\ kw = f) /\
  (c = f -> kh = f -> kw = f -> forall m l i j, inside [f; c; kh; kw] [m; l; i; j] ->
     el d shape w [m; l; i; j] = el d [kh; kw; c; f] kernel [l; i; m; j]).
Proof.
  intros A d kh kw c f kernel. do 2 eexists. split; [reflexivity|]. split.
  - unfold conv_accepts. rewrite !andb_true_iff, !Z.eqb_eq. lia.
  - intros -> -> -> m l i j I. unfold inside in I. inversion I as [|? ? ? ? H1 I1]; subst. inversion I1 as [|? ? ? ? H2 I2]; subst. inversion I2 as [|? ? ? ? H3 I3]; subst. inversion I3 as [|? ? ? ? H4 I4]; subst.
    unfold el. cbn [offset prod].
    replace (m * (f * (f * (f * 1))) + (l * (f * (f * 1)) + (i * (f * 1) + (j * 1 + 0)))) with ((m * f + l) * (f * f) + (i * f + j)) by ring. rewrite nth_moved by lia. f_equal. ring.
Qed.
Print Assumptions C87_convolution_refuted.
(** A 2x2 convolution with two filters of two channels is misread: weights[0, 0, 0, 1] is kernel[0, 0, 0, 1] and not kernel[0, 1, 0, 0]. *)
Example C87_convolution_misread : exists w, written_kernel 0 [2; 2; 2; 2] (tab 16 (fun k => k)) = Some ([2; 2; 2; 2], w) /\
  el 0 [2; 2; 2; 2] w [0; 0; 0; 1] = 1 /\ el 0 [2; 2; 2; 2] (tab 16 (fun k => k)) [0; 1; 0; 0] = 4.
Proof. eexists. split; [reflexivity|]. split; vm_compute; reflexivity. Qed.

Open Scope nat_scope.
Open Scope string_scope.
(** Concrete cases. *)
Example C87_chain : exists st, write_and_read 1 [mkEntry "x" WOther false []; mkEntry "a" WEnum false []; mkEntry "b" WConf false []; mkEntry "c" WEnum true []] = Some st /\
  dnn (json_graph st) = [0; 1; 2; 3; 4] /\ previous_layer (json_graph st) 4 = [3].
Proof. eexists. split; [reflexivity|]. split; vm_compute; reflexivity. Qed.
Example C87_diamond : let model := [mkEntry "x" WOther false []; mkEntry "a" WEnum false [["x"]]; mkEntry "b" WEnum false [["x"]]; mkEntry "a + b" WConf false [["a"; "b"]]] in
  NoDup (map w_name model) /\ Forall readable (tl model) /\ softmax_last (tl model) /\ operands model 3 (mkEntry "a + b" WConf false [["a"; "b"]]) [1; 2].
Proof.
  cbv zeta. split; [repeat constructor; cbn; intuition discriminate|]. split; [constructor; [left; reflexivity|constructor; [left; reflexivity|constructor; [right; reflexivity|constructor]]]|]. split; [repeat constructor|].
  eexists. split; [reflexivity|]. repeat constructor; try lia; eexists; split; reflexivity.
Qed.
