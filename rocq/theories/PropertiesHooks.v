(** * Property C84: the training hooks read, replace and save the parameters. *)
From Coq Require Import String ZArith List Lia Bool.
Import ListNotations.
From Verif Require Import CMem Params Driver DriverProofs Quant Hooks PropertiesDriver PropertiesQuant.
Open Scope list_scope.
Open Scope Z_scope.

(** ** Specification.  The weights (or the constant) and the biases of a layer, by
    name; those of a network, in the order of the layers. *)
Definition trained {V} (l : player V) : list (string * list V) :=
  entry (weights_of l) (fun w => [(sym "weights_" l, w)]) ++ entry (p_biases l) (fun b => [(sym "biases_" l, b)]).
Definition network_parameters {V} (layers : list (player V)) : list (string * list V) := flat_map trained layers.
(** A layer is not both a ConstantLayer and a layer with weights. *)
Definition one_kind {V} (l : player V) : Prop := p_constant l = None \/ p_weights l = None.
(** Two networks that differ in the values of their parameters only. *)
Definition same_shapes {V} (n1 n2 : list (player V)) : Prop :=
  map (fun d => (fst d, zlen (snd d))) (network_parameters n1) = map (fun d => (fst d, zlen (snd d))) (network_parameters n2).

Section Proofs.
  Context {V : Type}.
  Implicit Types (m : memory V) (l : player V).
  Lemma hook_trained l : one_kind l -> hook_params l = map (fun d => (fst d, zlen (snd d))) (trained l).
  Proof.
    intros H. unfold hook_params, trained, weights_of. rewrite map_app.
    assert (E : forall (o : option (list V)) s, map (fun d : string * list V => (fst d, zlen (snd d))) (entry o (fun w => [(s, w)])) = entry o (fun w => [(s, zlen w)])) by (intros [[|a w]|] s; reflexivity).
    rewrite !E, app_assoc. f_equal. destruct H as [-> | ->].
    - cbn [entry]. rewrite app_nil_r. reflexivity.
    - cbn [entry app]. destruct (p_constant l); reflexivity.
  Qed.
  Lemma hooks_trained (n : list (player V)) : Forall one_kind n -> flat_map hook_params n = map (fun d => (fst d, zlen (snd d))) (network_parameters n).
  Proof. intros H. unfold network_parameters. induction H as [|l n Hl _ IH]; [reflexivity|]. cbn [flat_map]. rewrite map_app, IH, (hook_trained l Hl). reflexivity. Qed.

  Lemma loaded_in (defs : list (string * list V)) s v : NoDup (map fst defs) -> In (s, v) defs -> loaded defs s = Some v.
  Proof.
    unfold loaded. induction defs as [|[t w] defs IH]; intros ND Hi; [destruct Hi|]. cbn [map fst] in ND. inversion ND as [|? ? N ND']; subst.
    cbn [find fst]. destruct Hi as [E|Hi]; [injection E as -> ->; rewrite String.eqb_refl; reflexivity|].
    destruct (String.eqb_spec t s) as [->|NE]; [exfalso; apply N; apply (in_map fst) in Hi; exact Hi|]. apply IH; assumption.
  Qed.
  Lemma loaded_notin (defs : list (string * list V)) s : ~ In s (map fst defs) -> loaded defs s = None.
  Proof.
    unfold loaded. induction defs as [|[t w] defs IH]; intros N; [reflexivity|]. cbn [map fst find] in *.
    destruct (String.eqb_spec t s) as [->|NE]; [exfalso; apply N; left; reflexivity|]. apply IH. intros H. apply N. right. exact H.
  Qed.
  Lemma save_all (defs : list (string * list V)) m : (forall s v, In (s, v) defs -> m s = Some v) ->
    save_weights (map (fun d => (fst d, zlen (snd d))) defs) m = Some (concat (map snd defs)).
  Proof.
    induction defs as [|[s v] defs IH]; intros H; [reflexivity|]. cbn [map save_weights fst snd concat].
    rewrite (H s v (or_introl eq_refl)), Z.leb_refl, IH by (intros; apply H; right; assumption). cbn [bind].
    unfold zlen. rewrite Nat2Z.id, firstn_all. reflexivity.
  Qed.
  Lemma copy_all : forall (old new : list (string * list V)) m, NoDup (map fst old) ->
    map (fun d => (fst d, zlen (snd d))) old = map (fun d => (fst d, zlen (snd d))) new ->
    (forall s v, In (s, v) old -> m s = Some v) ->
    exists m', copy_weights true (map (fun d => (fst d, zlen (snd d))) old) (map snd new) m = Some m' /\
      (forall s v, In (s, v) new -> m' s = Some v) /\ (forall s, ~ In s (map fst old) -> m' s = m s).
  Proof.
    induction old as [|[s v] old IH]; intros new m ND SH H.
    - destruct new; [|discriminate]. exists m. split; [reflexivity|]. split; [intros s v []|reflexivity].
    - destruct new as [|[s' v'] new]; [discriminate|]. cbn [map fst snd] in SH. injection SH as <- EL SH. cbn [map fst] in ND. inversion ND as [|? ? N ND']; subst.
      cbn [map copy_weights fst snd]. unfold memcpy at 1. cbn [fst snd]. rewrite (H s v (or_introl eq_refl)). rewrite EL, !Z.leb_refl. cbn [andb bind].
      assert (A : firstn (Z.to_nat (zlen v')) v' ++ skipn (Z.to_nat (zlen v')) v = v').
      { unfold zlen in *. apply Nat2Z.inj in EL. rewrite Nat2Z.id, firstn_all, <- EL, skipn_all, app_nil_r. reflexivity. }
      rewrite A.
      destruct (IH new (set_array m s v') ND' SH) as (m' & E & G & F).
      { intros t w Hi. unfold set_array. destruct (String.eqb_spec t s) as [->|NE]; [exfalso; apply N; apply (in_map fst) in Hi; exact Hi|]. apply H. right. exact Hi. }
      exists m'. split; [exact E|]. split.
      + intros t w [Ht|Ht]; [|apply G; exact Ht]. injection Ht as <- <-. rewrite (F s N). unfold set_array. rewrite String.eqb_refl. reflexivity.
      + intros t Ht. rewrite F by (intros Hc; apply Ht; right; exact Hc). unfold set_array. destruct (String.eqb_spec t s) as [->|NE]; [exfalso; apply Ht; left; reflexivity|reflexivity].
  Qed.
End Proofs.

(** ** save_weights writes every weight and bias array, in order, nothing else. *)
Theorem C84_save : forall (V : Type) (n : list (player V)) (defs : list (string * list V)),
  Forall one_kind n -> NoDup (map fst defs) -> incl (network_parameters n) defs ->
  save_weights (flat_map hook_params n) (loaded defs) = Some (concat (map snd (network_parameters n))).
Proof.
  intros V n defs K ND IN. rewrite (hooks_trained n K). apply save_all. intros s v Hi. apply loaded_in; [exact ND|apply IN; exact Hi].
Qed.
Print Assumptions C84_save.

(** ** copy_weights, with the parameters in an object made from parameters.dat: given
    the parameters of another network of the same shapes, every weight and bias
    array holds its values, the other arrays keep theirs, and saving writes them. *)
Theorem C84_copy : forall (V : Type) (n new : list (player V)) (defs : list (string * list V)),
  Forall one_kind n -> NoDup (map fst defs) -> NoDup (map fst (network_parameters n)) -> incl (network_parameters n) defs -> same_shapes n new ->
  exists m, copy_weights true (flat_map hook_params n) (map snd (network_parameters new)) (loaded defs) = Some m /\
    (forall s v, In (s, v) (network_parameters new) -> m s = Some v) /\
    (forall s, ~ In s (map fst (network_parameters n)) -> m s = loaded defs s) /\
    save_weights (flat_map hook_params n) m = Some (concat (map snd (network_parameters new))).
Proof.
  intros V n new defs K ND NP IN SH. rewrite (hooks_trained n K).
  destruct (copy_all (network_parameters n) (network_parameters new) (loaded defs) NP SH) as (m & E & G & F).
  { intros s v Hi. apply loaded_in; [exact ND|apply IN; exact Hi]. }
  exists m. split; [exact E|]. split; [exact G|]. split; [exact F|]. unfold same_shapes in SH. rewrite SH. apply save_all. exact G.
Qed.
Print Assumptions C84_copy.

(** With layers of weights and biases only (no BatchNormalization, constant operand or
    blocked layout), the program is then the one generated from the other network. *)
Definition plain {V} (l : player V) : Prop :=
  one_kind l /\ p_layout l = None /\ p_patches l = None /\ p_norm l = None /\ p_operand l = None /\
  weights_of l <> Some [] /\ p_biases l <> Some [].
Lemma plain_definitions {V} (n : list (player V)) : Forall plain n -> flat_map bin_definitions n = network_parameters n.
Proof.
  intros H. unfold network_parameters. induction H as [|l n (K & L & P & N & O & W & B) _ IH]; [reflexivity|]. cbn [flat_map]. rewrite IH. f_equal.
  unfold bin_definitions, trained, weights_of in *. rewrite L, N, app_nil_r. f_equal.
  - destruct (p_constant l) as [[|? ?]|]; [exfalso; apply W; reflexivity|reflexivity|]. destruct (p_weights l) as [[|? ?]|]; [exfalso; apply W; reflexivity|reflexivity|reflexivity].
  - destruct (p_biases l) as [[|? ?]|]; [exfalso; apply B; reflexivity|reflexivity|reflexivity].
Qed.
Theorem C84_replaces_partial : forall (V : Type) (n new : list (player V)),
  Forall plain n -> Forall plain new -> NoDup (map fst (network_parameters n)) -> same_shapes n new ->
  exists m, copy_weights true (flat_map hook_params n) (map snd (network_parameters new)) (loaded (flat_map bin_definitions n)) = Some m /\
    forall s, m s = loaded (flat_map bin_definitions new) s.
Proof.
  intros V n new HN HW ND SH. rewrite !plain_definitions by assumption.
  assert (FST : map fst (network_parameters n) = map fst (network_parameters new)).
  { unfold same_shapes in SH. apply (f_equal (map fst)) in SH. rewrite !map_map in SH. exact SH. }
  assert (K : Forall one_kind n) by (eapply Forall_impl; [|exact HN]; intros l (K & _); exact K).
  destruct (C84_copy V n new (network_parameters n) K ND ND (incl_refl _) SH) as (m & E & G & F & _). exists m. split; [exact E|].
  intros s. destruct (in_dec string_dec s (map fst (network_parameters n))) as [Hi|Hn].
  - rewrite FST in Hi. apply in_map_iff in Hi as ([t v] & <- & Hi). cbn [fst]. rewrite (G t v Hi). symmetry. apply loaded_in; [rewrite <- FST; exact ND|exact Hi].
  - rewrite (F s Hn), !loaded_notin; [reflexivity|rewrite <- FST; exact Hn|exact Hn].
Qed.
Print Assumptions C84_replaces_partial.

(** With a BatchNormalization layer it is not: its mean, variance and scale are not
    parameters of the hook. *)
Theorem C84_replaces_refuted : exists (n new : list (player Z)) m s,
  Forall one_kind n /\ same_shapes n new /\ map fst (flat_map bin_definitions n) = map fst (flat_map bin_definitions new) /\
  copy_weights true (flat_map hook_params n) (map snd (network_parameters new)) (loaded (flat_map bin_definitions n)) = Some m /\
  In s (map fst (flat_map bin_definitions n)) /\ m s <> loaded (flat_map bin_definitions new) s.
Proof.
  set (l := fun mean => mkPlayer "BatchNormalization_01" None None None (Some [3]) None (Some ([mean], [5], [6])) None).
  exists [l 4], [l 7]. eexists _, "mean_BatchNormalization_01"%string. split; [repeat constructor|]. split; [reflexivity|]. split; [reflexivity|].
  split; [reflexivity|]. split; [right; left; reflexivity|]. vm_compute. discriminate.
Qed.
Print Assumptions C84_replaces_refuted.

(** With parameters.c, whose arrays are const, copying any parameter is undefined. *)
Theorem C84_copy_constants_refuted : forall (V : Type) (n : list (player V)) args,
  Forall one_kind n -> network_parameters n <> [] ->
  copy_weights false (flat_map hook_params n) args (loaded (flat_map c_definitions n)) = None.
Proof.
  intros V n args K NE. rewrite (hooks_trained n K). destruct (network_parameters n) as [|d ds]; [contradiction|].
  cbn [map copy_weights]. destruct args as [|a args]; [reflexivity|]. unfold memcpy. cbn [andb fst]. destruct (loaded _ _); reflexivity.
Qed.
Print Assumptions C84_copy_constants_refuted.

(** ** The file saved is parameters.dat (bytes of each element given by [enc]) when every
    array fills whole pages. *)
Theorem C84_saved_file_partial : forall (V : Type) (enc : V -> list byte) (n : list (player V)) k file pos syms, 0 <= k -> Forall plain n ->
  Forall (fun d => (2 ^ k | zlen (flat_map enc (snd d)))) (network_parameters n) ->
  bin_file (2 ^ k) (map (fun d => (fst d, flat_map enc (snd d))) (flat_map bin_definitions n)) = (file, pos, syms) ->
  file = flat_map enc (concat (map snd (network_parameters n))).
Proof.
  intros V enc n k file pos syms Hk HP HD HB. rewrite (plain_definitions n HP) in HB. unfold bin_file in HB.
  assert (G : forall ds file0 syms0, Forall (fun d : string * list V => (2 ^ k | zlen (flat_map enc (snd d)))) ds -> (2 ^ k | zlen file0) ->
    fold_left (bin_step (2 ^ k)) (map (fun d => (fst d, flat_map enc (snd d))) ds) (file0, zlen file0, syms0) = (file, pos, syms) ->
    file = file0 ++ flat_map enc (concat (map snd ds))).
  { clear HB HD. induction ds as [|[s v] ds IH]; intros file0 syms0 HF D0 E; cbn [map fold_left fst snd concat] in *.
    - injection E as <- _ _. cbn. rewrite app_nil_r. reflexivity.
    - inversion HF as [|? ? D1 HF']; subst. cbn [snd] in D1. unfold bin_step at 2 in E. cbn [fst snd] in E.
      assert (A : align_up (zlen file0) (2 ^ k) = zlen file0).
      { rewrite PropertiesQuant.align_up_eq by exact Hk. destruct D0 as [q Q]. rewrite Q. assert (0 < 2 ^ k) by (apply Z.pow_pos_nonneg; lia).
        rewrite Z.add_comm, Z.div_add by lia. rewrite Z.div_small by lia. ring. }
      rewrite A in E. assert (W : write_at file0 (zlen file0) (flat_map enc v) = file0 ++ flat_map enc v).
      { unfold write_at. destruct (flat_map enc v); [rewrite app_nil_r; reflexivity|]. rewrite Z.sub_diag. reflexivity. }
      rewrite W in E. assert (L : zlen file0 + zlen (flat_map enc v) = zlen (file0 ++ flat_map enc v)) by (unfold zlen; rewrite app_length; lia).
      rewrite L in E. apply IH in E; [|exact HF'|rewrite <- L; apply Z.divide_add_r; assumption]. rewrite E, flat_map_app, app_assoc. reflexivity. }
  apply (G _ [] [] HD); [apply Z.divide_0_r|exact HB].
Qed.
Print Assumptions C84_saved_file_partial.
(** In general it is not: parameters.dat has gaps up to the next page, so a file saved
    by one program cannot be the parameters.dat of another. *)
Theorem C84_saved_file_refuted : exists (n : list (player Z)) file pos syms saved, Forall plain n /\
  bin_file 4096 (map (fun d => (fst d, flat_map (fun x => [x]) (snd d))) (flat_map bin_definitions n)) = (file, pos, syms) /\
  save_weights (flat_map hook_params n) (loaded (flat_map bin_definitions n)) = Some saved /\ file <> flat_map (fun x => [x]) saved.
Proof.
  set (l := mkPlayer "Dense_01" (Some [1; 2]) None None (Some [3]) None None None : player Z). exists [l].
  destruct (bin_file 4096 (map (fun d => (fst d, flat_map (fun x => [x]) (snd d))) (flat_map bin_definitions [l]))) as [[file pos] syms] eqn:E.
  exists file, pos, syms, [1; 2; 3]. split; [constructor; [|constructor]; repeat split; try discriminate; left; reflexivity|].
  split; [reflexivity|]. split; [reflexivity|]. intros H. assert (L : zlen file = 3) by (rewrite H; reflexivity). revert E. vm_compute. intros E. injection E as E _ _. rewrite <- E in L. vm_compute in L. discriminate.
Qed.
Print Assumptions C84_saved_file_refuted.

(** ** batch_loop: every row of a batch of any size is given to one call; for elements of
    4 bytes the rows stay inside the two flat arrays and do not overlap. *)
Theorem C84_batch : forall nb mx width, 0 <= nb -> 0 < mx -> 0 <= width ->
  exists bs, (forall bs', batch_loop nb mx 0 bs' <-> bs' = bs) /\ map call_row (concat bs) = tab nb (fun r => r) /\
    (forall r, 0 <= r < nb -> 0 <= fst (row_bytes width 4 r) /\ snd (row_bytes width 4 r) <= 4 * (nb * width)) /\
    (forall r r', 0 <= r < r' -> snd (row_bytes width 4 r) <= fst (row_bytes width 4 r')).
Proof.
  intros nb mx width Hnb Hmx Hw. destruct (C35_every_sample_once_in_order nb mx Hnb Hmx) as (bs & U & R & _). exists bs. split; [exact U|]. split; [exact R|].
  unfold row_bytes. cbn [fst snd]. split; intros; nia.
Qed.
Print Assumptions C84_batch.
(** With data_type double the calls on two consecutive rows overlap, and the last one
    leaves the arrays. *)
Theorem C84_batch_double_refuted : forall nb width, 0 < nb -> 0 < width ->
  snd (row_bytes width 8 (nb - 1)) > 4 * (nb * width) /\
  forall r, fst (row_bytes width 8 (r + 1)) < snd (row_bytes width 8 r).
Proof. intros nb width Hn Hw. unfold row_bytes. cbn [fst snd]. split; [|intros r]; nia. Qed.
Print Assumptions C84_batch_double_refuted.

(** Non-vacuity: a network of a constant, and a dense layer. *)
Definition hook_net (a b c : Z) : list (player Z) :=
  [mkPlayer "Constant_01" None None (Some [a]) None None None None; mkPlayer "Dense_02" (Some [b; b]) None None (Some [c]) None None None].
Example C84_example : exists m,
  Forall plain (hook_net 1 2 3) /\ same_shapes (hook_net 1 2 3) (hook_net 7 8 9) /\
  copy_weights true (flat_map hook_params (hook_net 1 2 3)) [[7]; [8; 8]; [9]] (loaded (flat_map bin_definitions (hook_net 1 2 3))) = Some m /\
  m "weights_Dense_02"%string = Some [8; 8] /\ save_weights (flat_map hook_params (hook_net 1 2 3)) m = Some [7; 8; 8; 9].
Proof.
  eexists. split; [constructor; [|constructor; [|constructor]]; repeat split; try discriminate; [right|left]; reflexivity|].
  split; [reflexivity|]. split; [reflexivity|]. split; reflexivity.
Qed.
