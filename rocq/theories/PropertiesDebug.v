(** * C77: the debug mode shows the tensors the layers compute.
    [shown keras softmax l]: the layers of [l], except, in mode "keras", those
    followed by a Softmax.  A tensor is shown as the framework lays it out:
    [flat] puts the channels last when data_format is channels_last and the layer
    has channels.  The label of layer number n is its name, a blank and n. *)
From Coq Require Import String Ascii.
From Coq Require Import ZArith List Lia Bool Sorted Permutation QArith Reals.
Import ListNotations.
Open Scope list_scope.
Open Scope Z_scope.
From Verif Require Import CMem Tensor Num NumInst Graph GraphSpec Net NetProofs Movement LayerKinds LayerKindsProofs ModelProofs Pattern HexLit HexLitProofs Compare CompareProofs Debug DebugProofs DebugRun PropertiesMovement PropertiesNet.

Definition is_softmax (name : nat -> text) (n : nat) : bool := if list_eq_dec ascii_dec (name n) (list_ascii_of_string "Softmax") then true else false.
Definition layer_channels (N : num) (md : model N) (n : nat) : option (Z * Z * Z) := if md_last N md then out_channels N (lk N md n) else None.
Definition layer_constant (N : num) (md : model N) (n : nat) : bool := is_constant_layer N (lk N md n).
Definition shown_layers (N : num) (md : model N) (s : schedule) (name : nat -> text) (keras : bool) : list nat :=
  filter (fun n => negb (layer_constant N md n)) (shown keras (is_softmax name) (tl (order s))).

(** The numbers selected by the constructor; an exception if, in mode "keras",
    the input is followed by a Softmax. *)
Theorem C77_targets : forall keras softmax l,
  load_debug_target keras softmax l [] = if match l with n :: _ => keras && softmax n | [] => false end then None else Some (shown keras softmax l).
Proof. exact load_targets_all. Qed.
Print Assumptions C77_targets.

Section Model.
  Context (N : num) (ninf : T N) (q : Q -> T N) (md : model N) (inp : nat) (s : schedule).
  Hypothesis SP : supported N md inp.
  Hypothesis HS : tri_topo (md_graph N md) = Some s.
  Lemma graph_linked : linked (md_graph N md). Proof. apply SP. Qed.
  Lemma python_values x val : python_supported N md -> zlen x = md_size N md inp ->
    evaluates (documented_net N ninf q md s) x val -> evaluates (python_net N ninf q md s) x val.
  Proof.
    intros [PA _] Hx Hv n Hn. rewrite (Hv n Hn).
    cbn [LayerKinds.python_net LayerKinds.documented_net net_with net_graph forward pre].
    destruct (previous_layer (md_graph N md) n) as [|p0 ps0] eqn:EP.
    - unfold LayerKinds.meaning, meaning_with, py_forward. destruct (source_kind N md inp SP n Hn EP) as [->|[w Ew]].
      + destruct (sp_input N md inp SP) as [(? & ? & ? & EK & _)|(? & EK)]; unfold lk in EK; rewrite EK; reflexivity.
      + unfold lk in Ew. rewrite Ew. reflexivity.
    - rewrite <- EP. symmetry. apply forward_ok; [|apply PA; exact Hn].
      replace (map zlen (map val (previous_layer (md_graph N md) n))) with (map (md_size N md) (previous_layer (md_graph N md) n)).
      + apply (sp_layers N md inp SP); [exact Hn|]. rewrite EP. discriminate.
      + rewrite map_map. apply map_ext_in. intros p Hp. symmetry.
        assert (Hpi : In p (order s)) by (apply (IO N ninf q md inp s SP HS); eapply (links_closed _ graph_linked n p Hn); right; exact Hp).
        apply (val_size' (documented_net N ninf q md s) s graph_linked (supported_runnable N md inp s SP HS) (md_size N md inp)
          (supported_layer_correct N ninf q md inp s SP (supported_runnable N md inp s SP HS) (hd_is_input N md inp s SP HS)) x val Hx Hv p Hpi).
  Qed.
End Model.

Lemma order_split N md inp s : supported N md inp -> tri_topo (md_graph N md) = Some s -> exists l, order s = inp :: l /\ NoDup (inp :: l).
Proof.
  intros SP HS. pose proof (hd_is_input N md inp s SP HS) as H. pose proof (order_nodup (documented_net N (n0 N) (fun _ => n0 N) md s) s (graph_linked N md inp SP) (supported_runnable N md inp s SP HS)) as ND.
  pose proof (rn_nonempty _ s (supported_runnable N md inp s SP HS)) as NE. destruct (order s) as [|n l]; [congruence|]. cbn [hd] in H. subst n. exists l. auto.
Qed.
Lemma recorded_layers N md inp s name keras targets : supported N md inp -> tri_topo (md_graph N md) = Some s ->
  load_debug_target keras (is_softmax name) (tl (order s)) [] = Some targets ->
  filter (recorded (layer_constant N md) targets) (order s) = shown_layers N md s name keras.
Proof.
  intros SP HS EL. destruct (order_split N md inp s SP HS) as (l & E & ND). rewrite load_targets_all in EL. destruct (match tl (order s) with n :: _ => _ | [] => _ end); [discriminate|].
  injection EL as <-. unfold shown_layers. rewrite E. cbn [tl]. apply filter_order. exact ND.
Qed.

(** Python: the result of compute_inference in debug mode is, for the last input,
    the value of every shown layer with its label. *)
Theorem C77_python_records : forall (N : num) (ninf : T N) (q : Q -> T N) (md : model N) inp s name keras targets,
  supported N md inp -> tri_topo (md_graph N md) = Some s -> python_supported N md ->
  load_debug_target keras (is_softmax name) (tl (order s)) [] = Some targets ->
  forall (inputs : list (list (T N))) x val, (forall x', In x' (inputs ++ [x]) -> zlen x' = md_size N md inp) ->
  evaluates (documented_net N ninf q md s) x val ->
  compute_inference_debug (n0 N) (python_net N ninf q md s) name (layer_constant N md) (layer_channels N md) targets s (inputs ++ [x]) None =
  Some (map (fun n => flat (n0 N) (layer_channels N md) n (val n)) (shown_layers N md s name keras),
        map (fun n => label (name n) n) (shown_layers N md s name keras)).
Proof.
  intros N ninf q md inp s name keras targets SP HS PS EL inputs x val SZ HV.
  rewrite (dataset_trace (n0 N) (python_net N ninf q md s) s name (layer_constant N md) (layer_channels N md) (graph_linked N md inp SP) (supported_runnable N md inp s SP HS) targets inputs x val None).
  - rewrite (recorded_layers N md inp s name keras targets SP HS EL). reflexivity.
  - intros x' Hx'. destruct (model_values_exist N ninf q md inp s SP HS x') as (v & Hv). exists v. eapply python_values; eauto.
  - eapply python_values; eauto. apply SZ. apply in_or_app. right. left. reflexivity.
Qed.
Print Assumptions C77_python_records.

(** C: the prints show the value of every shown layer, and the prints leave the
    computation unchanged. *)
Theorem C77_c_prints_partial : forall (N : num) (ninf : T N) (q : Q -> T N) (md : model N) inp s name keras targets,
  supported N md inp -> tri_topo (md_graph N md) = Some s ->
  load_debug_target keras (is_softmax name) (tl (order s)) [] = Some targets ->
  forall (m : mem (T N)) val, declared (python_net N ninf q md s) s m -> evaluates (documented_net N ninf q md s) (m NnIn) val ->
  exists m', run_layers (python_net N ninf q md s) s (order s) m = Some m' /\
    run_layers_debug (python_net N ninf q md s) (layer_constant N md) targets s (order s) m =
    Some (m', map (fun n => (n, val n)) (shown_layers N md s name keras)).
Proof.
  intros N ninf q md inp s name keras targets SP HS EL m val D HV. rewrite <- (recorded_layers N md inp s name keras targets SP HS EL).
  change (python_net N ninf q md s) with (net_with N ninf q (py_forward N ninf q) md s).
  exact (c_trace (n0 N) (documented_net N ninf q md s) s (layer_constant N md) (graph_linked N md inp SP) (supported_runnable N md inp s SP HS)
    (md_size N md inp) targets (supported_layer_correct N ninf q md inp s SP (supported_runnable N md inp s SP HS) (hd_is_input N md inp s SP HS)) (m NnIn) val
    ltac:(rewrite (D NnIn); unfold array_size; rewrite (hd_is_input N md inp s SP HS); reflexivity) HV m D ltac:(exists []; symmetry; apply app_nil_r)).
Qed.
Print Assumptions C77_c_prints_partial.

(** ** The tools.  [survives]: the text "%.9g" of the value is a word that is read
    back as the value. *)
Theorem C77_file_read_back : forall {V} (z : V) name channels (fmt : V -> text) parse (val : nat -> list V) layers,
  (forall n, unbroken (name n)) -> NoDup layers ->
  (forall n C H W, channels n = Some (C, H, W) -> 0 <= C /\ 0 <= H /\ 0 <= W) ->
  (forall n, In n layers -> val n <> [] /\ Forall (survives fmt parse) (val n) /\ forall C H W, channels n = Some (C, H, W) -> zlen (val n) = C * H * W) ->
  exists sorted, Permutation layers sorted /\ StronglySorted lt sorted /\
    extract_outputs_c z parse (debug_file name channels fmt (map (fun n => (n, val n)) layers)) (zlen layers) =
      Some (map (fun n => flat z channels n (val n)) sorted, map (fun n => label (name n) n) sorted) /\
    reorder_outputs (map (fun n => flat z channels n (val n)) layers) (map (fun n => label (name n) n) layers) =
      Some (map (fun n => flat z channels n (val n)) sorted, map (fun n => label (name n) n) sorted).
Proof.
  intros V z name channels fmt parse val layers NM ND CH OK.
  destruct (reorder_ok name NM (fun n => flat z channels n (val n)) layers ND) as (so & P & S & E). exists so. split; [exact P|]. split; [exact S|]. split; [|exact E].
  unfold extract_outputs_c. destruct (read_all z name channels fmt parse NM CH (map (fun n => (n, val n)) layers) 0 (zlen layers) (mkReading [] [] false (0, 0, 0))) as (r & ER & E1 & E2).
  - apply Forall_map. apply Forall_forall. intros n Hn. exact (OK n Hn).
  - lia.
  - reflexivity.
  - unfold zlen. rewrite map_length. lia.
  - rewrite ER. cbn [bind]. rewrite E1, E2. cbn [list_result targets_read Datatypes.app]. rewrite !map_map. exact E.
Qed.
Print Assumptions C77_file_read_back.

Definition same_at {V} (close : V -> V -> bool) (a b : list (list V)) (i : nat) : Prop :=
  exists x y, nth_error a i = Some x /\ nth_error b i = Some y /\ Forall2 (fun u v => close u v = true) x y.
Lemma allclose_iff {V} (close : V -> V -> bool) x y : allclose close x y = true <-> Forall2 (fun u v => close u v = true) x y.
Proof.
  unfold allclose. revert y. induction x as [|u x IH]; intros [|v y]; cbn [List.length combine forallb fst snd].
  - split; [constructor|reflexivity].
  - split; [discriminate|inversion 1].
  - split; [discriminate|inversion 1].
  - rewrite !andb_true_iff. specialize (IH y). rewrite andb_true_iff in IH. split.
    + intros (A & B & C). constructor; [exact B|]. apply IH. auto.
    + inversion 1 as [|? ? ? ? A B]; subst. apply IH in B. destruct B as (B & C). auto.
Qed.
Lemma compare_loop_ok {V} (close : V -> V -> bool) : forall a b targets c k f, List.length a = List.length b -> (List.length a <= List.length targets)%nat ->
  exists c' k' f', compare_loop close a b targets c k f = Some (c', k', f') /\
    (c' = true <-> c = true /\ forall i, (i < List.length a)%nat -> same_at close a b i) /\
    (f' = None <-> f = None /\ forall i, (i < List.length a)%nat -> same_at close a b i) /\
    (forall t, f = Some t -> f' = Some t) /\
    (forall t, f = None -> f' = Some t -> exists i, (i < List.length a)%nat /\ nth_error targets i = Some t /\ ~ same_at close a b i /\ forall j, (j < i)%nat -> same_at close a b j).
Proof.
  induction a as [|x a IH]; intros b targets c k f EL TL.
  - destruct b; [|discriminate]. exists c, k, f. split; [reflexivity|]. cbn [List.length]. split; [split; [intros ->; split; [reflexivity|intros; lia]|tauto]|].
    split; [split; [intros ->; split; [reflexivity|intros; lia]|tauto]|]. split; [auto|]. intros t -> E. discriminate.
  - destruct b as [|y b]; [discriminate|]. destruct targets as [|t0 targets]; [cbn in TL; lia|]. cbn [List.length] in *. injection EL as EL.
    assert (SH : forall i, same_at close (x :: a) (y :: b) (Datatypes.S i) <-> same_at close a b i) by (intros i; reflexivity).
    assert (S0 : same_at close (x :: a) (y :: b) 0 <-> allclose close x y = true).
    { rewrite allclose_iff. split; [intros (x' & y' & E1 & E2 & F); injection E1 as <-; injection E2 as <-; exact F|]. intros F. exists x, y. auto. }
    assert (ALL : forall P : Prop, (P /\ forall i, (i < Datatypes.S (List.length a))%nat -> same_at close (x :: a) (y :: b) i) <-> (P /\ allclose close x y = true /\ forall i, (i < List.length a)%nat -> same_at close a b i)).
    { intros P. split.
      - intros (HP & H). split; [exact HP|]. split; [apply S0; apply H; lia|]. intros i Hi. apply (proj1 (SH i)). apply H. lia.
      - intros (HP & H0 & H). split; [exact HP|]. intros [|i] Hi; [apply S0; exact H0|]. apply (proj2 (SH i)). apply H. lia. }
    cbn [compare_loop]. destruct (allclose close x y) eqn:EC.
    + destruct (IH b targets c k f EL ltac:(lia)) as (c' & k' & f' & E & I1 & I2 & I3 & I4). exists c', k', f'. split; [exact E|].
      split; [rewrite ALL; rewrite I1; tauto|]. split; [rewrite ALL; rewrite I2; tauto|]. split; [exact I3|].
      intros t EF ET. destruct (I4 t EF ET) as (i & Hi & EN & NS & PR). exists (Datatypes.S i). split; [lia|]. split; [exact EN|]. split; [intros X; apply NS, (proj1 (SH i)); exact X|].
      intros [|j] Hj; [apply S0; reflexivity|]. apply (proj2 (SH j)), PR. lia.
    + destruct (IH b targets false (k + 1) (match f with None => Some t0 | Some _ => f end) EL ltac:(lia)) as (c' & k' & f' & E & I1 & I2 & I3 & I4). exists c', k', f'. split; [exact E|].
      split; [rewrite ALL; rewrite I1; split; [intros (X & _); discriminate|intros (_ & X & _); discriminate]|].
      split; [rewrite ALL; rewrite I2; split; [destruct f; intros (X & _); discriminate|intros (_ & X & _); discriminate]|].
      split; [intros t ->; apply I3; reflexivity|]. intros t -> ET. rewrite (I3 t0 eq_refl) in ET. injection ET as <-. exists 0%nat. split; [lia|]. split; [reflexivity|].
      split; [rewrite S0; discriminate|]. intros j Hj. lia.
Qed.
Lemma compare_count {V} (close : V -> V -> bool) : forall a b targets c k f c' k' f', List.length a = List.length b ->
  compare_loop close a b targets c k f = Some (c', k', f') ->
  exists errors, NoDup errors /\ (forall i, In i errors <-> (i < List.length a)%nat /\ ~ same_at close a b i) /\ k' = k + zlen errors.
Proof.
  induction a as [|x a IH]; intros b targets c k f c' k' f' EL E.
  - cbn [compare_loop] in E. exists []. split; [constructor|]. split; [|unfold zlen; cbn; injection E; lia]. intros i. cbn. lia.
  - destruct b as [|y b]; [discriminate|]. destruct targets as [|t0 targets]; [discriminate E|]. cbn [List.length compare_loop] in *. injection EL as EL.
    assert (SH : forall i, same_at close (x :: a) (y :: b) (Datatypes.S i) <-> same_at close a b i) by (intros i; reflexivity).
    assert (S0 : same_at close (x :: a) (y :: b) 0 <-> allclose close x y = true).
    { rewrite allclose_iff. split; [intros (x' & y' & E1 & E2 & F); injection E1 as <-; injection E2 as <-; exact F|]. intros F. exists x, y. auto. }
    assert (IN : forall errors, (forall i, In i errors <-> (i < List.length a)%nat /\ ~ same_at close a b i) ->
      forall i, In (Datatypes.S i) (map Datatypes.S errors) <-> (Datatypes.S i < Datatypes.S (List.length a))%nat /\ ~ same_at close (x :: a) (y :: b) (Datatypes.S i)).
    { intros errors I i. rewrite SH, <- Nat.succ_lt_mono, <- I, in_map_iff. split; [intros (j & EJ & Hj); injection EJ as ->; exact Hj|intros Hi; exists i; auto]. }
    destruct (allclose close x y) eqn:EC.
    + destruct (IH _ _ _ _ _ _ _ _ EL E) as (er & ND & I & EK). exists (map Datatypes.S er). split; [apply FinFun.Injective_map_NoDup; [intros u v X; injection X; auto|exact ND]|].
      split; [|unfold zlen in *; rewrite map_length; exact EK]. intros [|i]; [|apply IN; exact I]. split; [intros X; apply in_map_iff in X; destruct X as (j & X & _); discriminate|].
      intros (_ & X). exfalso. apply X. apply S0. reflexivity.
    + destruct (IH _ _ _ _ _ _ _ _ EL E) as (er & ND & I & EK). exists (0%nat :: map Datatypes.S er). split.
      { constructor; [intros X; apply in_map_iff in X; destruct X as (j & X & _); discriminate|]. apply FinFun.Injective_map_NoDup; [intros u v X; injection X; auto|exact ND]. }
      split; [|rewrite EK; unfold zlen; cbn [List.length]; rewrite map_length; lia].
      intros [|i]; [|rewrite <- (IN er I i); cbn [In]; split; [intros [X|X]; [discriminate|exact X]|auto]].
      split; [intros _; split; [lia|rewrite S0; discriminate]|left; reflexivity].
Qed.
(** compare_result: True exactly when every pair of tensors is close; the count
    is the number of pairs that are not, the first error reported is the first of them. *)
Theorem C77_compare_result : forall {V} (close : V -> V -> bool) acetone reference targets,
  List.length acetone = List.length reference -> (List.length acetone <= List.length targets)%nat ->
  exists correct count first, compare_result close acetone reference targets false = Some (correct, count, first) /\
    (correct = true <-> forall i, (i < List.length acetone)%nat -> same_at close acetone reference i) /\
    (exists errors, NoDup errors /\ (forall i, In i errors <-> (i < List.length acetone)%nat /\ ~ same_at close acetone reference i) /\ count = zlen errors) /\
    (first = None <-> correct = true) /\
    (forall t, first = Some t -> exists i, (i < List.length acetone)%nat /\ nth_error targets i = Some t /\ ~ same_at close acetone reference i /\
       forall j, (j < i)%nat -> same_at close acetone reference j).
Proof.
  intros V close a b targets EL TL. destruct (compare_loop_ok close a b targets true 0 None EL TL) as (c & k & f & E & I1 & I2 & _ & I4).
  exists c, k, f. destruct (compare_count close a b targets true 0 None c k f EL E) as (er & ND & IE & EK).
  unfold compare_result. rewrite EL, Nat.eqb_refl. cbn [negb]. rewrite E. cbn [bind andb]. split; [reflexivity|].
  split; [rewrite <- EL; tauto|]. split; [exists er; rewrite <- EL; split; [exact ND|]; split; [exact IE|rewrite EK; lia]|].
  split; [tauto|]. intros t ET. rewrite <- EL. apply I4; auto.
Qed.
(** Three tensors, the second and the third of which differ. *)
Example C77_compare_result_example :
  compare_result Z.eqb [[1; 2]; [3]; [4; 5]] [[1; 2]; [7]; [4]] [label [] 1; label [] 2; label [] 3] false = Some (false, 2, Some (label [] 2)).
Proof. reflexivity. Qed.
Print Assumptions C77_compare_result.
Lemma compare_same {V} (close : V -> V -> bool) a targets : (forall v, close v v = true) -> (List.length a <= List.length targets)%nat ->
  compare_result close a a targets false = Some (true, 0, None).
Proof.
  intros RF. unfold compare_result. rewrite Nat.eqb_refl. cbn [negb]. intros TL.
  replace (compare_loop close a a targets true 0 None) with (Some (true, 0, @None text)); [reflexivity|]. revert targets TL.
  induction a as [|x a IH]; intros targets TL; [reflexivity|]. destruct targets as [|t targets]; [cbn in TL; lia|]. cbn [compare_loop].
  replace (allclose close x x) with true; [apply IH; cbn in TL; lia|]. symmetry. apply allclose_iff. clear -RF. induction x; constructor; auto.
Qed.

(** The file of the C program and the result of the Python inference, read with
    the tools, hold the same tensors in the same order and compare as equal. *)
Theorem C77_c_and_python_agree_partial : forall (N : num) (ninf : T N) (q : Q -> T N) (md : model N) inp s name keras targets (fmt : T N -> text) parse close,
  supported N md inp -> tri_topo (md_graph N md) = Some s -> python_supported N md -> (forall n, unbroken (name n)) ->
  load_debug_target keras (is_softmax name) (tl (order s)) [] = Some targets ->
  (forall n, In n (shown_layers N md s name keras) -> 0 < md_size N md n) -> (forall v, survives fmt parse v) -> (forall v, close v v = true) ->
  forall (m : mem (T N)), declared (python_net N ninf q md s) s m ->
  exists m' printed outputs labels vs ls,
    run_layers_debug (python_net N ninf q md s) (layer_constant N md) targets s (order s) m = Some (m', printed) /\
    compute_inference_debug (n0 N) (python_net N ninf q md s) name (layer_constant N md) (layer_channels N md) targets s [m NnIn] None = Some (outputs, labels) /\
    extract_outputs_c (n0 N) parse (debug_file name (layer_channels N md) fmt printed) (zlen labels) = Some (vs, ls) /\
    reorder_outputs outputs labels = Some (vs, ls) /\ compare_result close vs vs ls false = Some (true, 0, None).
Proof.
  intros N ninf q md inp s name keras targets fmt parse close SP HS PS NM EL PZ SV RF m D.
  destruct (model_values_exist N ninf q md inp s SP HS (m NnIn)) as (val & HV).
  destruct (C77_c_prints_partial N ninf q md inp s name keras targets SP HS EL m val D HV) as (m' & _ & EP).
  assert (SX : zlen (m NnIn) = md_size N md inp) by (rewrite (D NnIn); unfold array_size; rewrite (hd_is_input N md inp s SP HS); reflexivity).
  pose proof (C77_python_records N ninf q md inp s name keras targets SP HS PS EL [] (m NnIn) val) as PY. cbn [Datatypes.app] in PY.
  specialize (PY ltac:(intros x' [<-|[]]; exact SX) HV).
  set (L := shown_layers N md s name keras) in *.
  assert (IL : forall n, In n L -> In n (order s) /\ n <> inp /\ is_constant_layer N (lk N md n) = false).
  { intros n Hn. apply filter_In in Hn. destruct Hn as (Hn & CN). apply shown_in in Hn. destruct (order_split N md inp s SP HS) as (l & E & ND). rewrite E in *. cbn [tl] in Hn.
    split; [right; exact Hn|]. split; [intros ->; inversion ND; contradiction|]. apply negb_true_iff in CN. exact CN. }
  assert (ND : NoDup L).
  { apply NoDup_filter. apply shown_nodup. destruct (order_split N md inp s SP HS) as (l & E & ND). rewrite E. inversion ND. assumption. }
  assert (CHK : forall n C H W, In n (order s) -> layer_channels N md n = Some (C, H, W) -> (0 <= C /\ 0 <= H /\ 0 <= W) /\ md_size N md n = C * H * W).
  { intros n C H W Hn EC. unfold layer_channels in EC. destruct (md_last N md); [|discriminate]. pose proof (proj1 (IO N ninf q md inp s SP HS n) Hn) as Hd.
    destruct (channels_size N (md_layer N md n) (map (md_size N md) (previous_layer (md_graph N md) n)) C H W) as (H1 & H2 & H3 & H4).
    - apply (sp_layers N md inp SP); [exact Hd|]. intros EQ. destruct (source_kind N md inp SP n Hd EQ) as [->|[w Ew]].
      + destruct (sp_input N md inp SP) as [(? & ? & ? & EK & _)|(? & EK)]; rewrite EK in EC; discriminate.
      + rewrite Ew in EC. discriminate.
    - exact EC.
    - split; [lia|]. symmetry. exact H4. }
  set (channels := fun n => if in_dec Nat.eq_dec n (order s) then layer_channels N md n else None).
  destruct (C77_file_read_back (n0 N) name channels fmt parse val L NM ND) as (so & P & S & E1 & E2).
  { intros n C H W. unfold channels. destruct (in_dec Nat.eq_dec n (order s)) as [Hn|]; [|discriminate]. intros EC. exact (proj1 (CHK n C H W Hn EC)). }
  { intros n Hn. destruct (IL n Hn) as (Ho & _). 
    pose proof (val_size' (documented_net N ninf q md s) s (graph_linked N md inp SP) (supported_runnable N md inp s SP HS) (md_size N md inp)
      (supported_layer_correct N ninf q md inp s SP (supported_runnable N md inp s SP HS) (hd_is_input N md inp s SP HS)) (m NnIn) val SX HV n Ho) as SZ. cbn [LayerKinds.documented_net net_with size] in SZ.
    specialize (PZ n Hn). split; [intros X; rewrite X in SZ; unfold zlen in SZ; cbn in SZ; lia|]. split; [apply Forall_forall; intros v _; apply SV|].
    intros C H W. unfold channels. destruct (in_dec Nat.eq_dec n (order s)); [|contradiction]. intros EC. rewrite SZ. exact (proj2 (CHK n C H W Ho EC)). }
  assert (FE : forall n, In n L -> flat (n0 N) channels n (val n) = flat (n0 N) (layer_channels N md) n (val n)).
  { intros n Hn. unfold flat, channels. destruct (in_dec Nat.eq_dec n (order s)) as [|X]; [reflexivity|]. exfalso. apply X. apply IL. exact Hn. }
  assert (FE' : forall n, In n so -> flat (n0 N) channels n (val n) = flat (n0 N) (layer_channels N md) n (val n)).
  { intros n Hn. apply FE. apply (Permutation_in n (Permutation_sym P)). exact Hn. }
  eexists m', _, _, _, _, _. split; [exact EP|]. split; [exact PY|].
  assert (EF : debug_file name (layer_channels N md) fmt (map (fun n => (n, val n)) L) = debug_file name channels fmt (map (fun n => (n, val n)) L)).
  { unfold debug_file. rewrite !flat_map_concat_map, !map_map. f_equal. apply map_ext_in. intros n Hn. cbn [fst snd]. f_equal. unfold header, channels.
    destruct (in_dec Nat.eq_dec n (order s)) as [|X]; [reflexivity|]. exfalso. apply X. apply IL. exact Hn. }
  rewrite EF. replace (zlen (map (fun n => label (name n) n) L)) with (zlen L) by (unfold zlen; rewrite map_length; reflexivity).
  split; [exact E1|]. split.
  - rewrite <- E2. f_equal. apply map_ext_in. intros n Hn. symmetry. apply FE. exact Hn.
  - apply compare_same; [exact RF|]. rewrite !map_length. lia.
Qed.
Print Assumptions C77_c_and_python_agree_partial.

(** ** Choosing layers of the Python result by their numbers. *)
Lemma label_digit name n : (n < 10)%nat -> nth_error (rev (label name n)) 0 = Some (hex_char (Z.of_nat n)).
Proof.
  intros H. unfold label, str. cbn [dec_digits]. replace (Z.of_nat n <? 10) with true by (symmetry; apply Z.ltb_lt; lia). cbn [Datatypes.app].
  rewrite rev_app_distr. cbn [rev Datatypes.app nth_error]. rewrite Z.mod_small by lia. reflexivity.
Qed.
Lemma digit_int d : 0 <= d < 10 -> py_int [hex_char d] = Some d.
Proof.
  intros H. unfold py_int. cbn [forallb]. rewrite is_dec_char by exact H. cbn [andb]. f_equal. unfold number. cbn [fold_left]. rewrite digit_char by lia. lia.
Qed.
Lemma matching_ok {V} (name : nat -> text) (f : nat -> list V) i ns : Forall (fun n => (n < 10)%nat) ns ->
  matching i (map f ns) (map (fun n => label (name n) n) ns) =
  Some (map f (filter (fun n => i =? Z.of_nat n) ns), map (fun n => label (name n) n) (filter (fun n => i =? Z.of_nat n) ns)).
Proof.
  intros F. induction F as [|n ns Hn F IH]; [reflexivity|]. cbn [map matching]. rewrite label_digit by exact Hn. cbn [bind]. rewrite digit_int by lia. cbn [bind].
  rewrite IH. cbn [bind filter fst snd]. destruct (i =? Z.of_nat n); reflexivity.
Qed.
Lemma collect_ok {V} (name : nat -> text) (f : nat -> list V) ns indices : Forall (fun n => (n < 10)%nat) ns ->
  let ms := flat_map (fun i => filter (fun n => i =? Z.of_nat n) ns) indices in
  collect indices (map f ns, map (fun n => label (name n) n) ns) = Some (map f ms, map (fun n => label (name n) n) ms).
Proof.
  intros F. induction indices as [|i indices IH]; [reflexivity|]. cbn [collect fst snd flat_map]. rewrite matching_ok by exact F. cbn [bind]. cbv zeta in IH. rewrite IH. cbn [bind fst snd].
  rewrite !map_app. reflexivity.
Qed.
Theorem C77_python_selection_partial : forall {V} (name : nat -> text) (f : nat -> list V) layers indices,
  (forall n, unbroken (name n)) -> NoDup layers -> NoDup indices -> (forall n, In n layers -> (n < 10)%nat) ->
  exists sorted, StronglySorted lt sorted /\ (forall n, In n sorted <-> In n layers /\ In (Z.of_nat n) indices) /\
    extract_outputs_python (map f layers, map (fun n => label (name n) n) layers) indices = Some (map f sorted, map (fun n => label (name n) n) sorted).
Proof.
  intros V name f layers indices NM ND NI LT. assert (F : Forall (fun n => (n < 10)%nat) layers) by (apply Forall_forall; exact LT).
  unfold extract_outputs_python. rewrite collect_ok by exact F. cbn [bind fst snd].
  set (ms := flat_map (fun i => filter (fun n => i =? Z.of_nat n) layers) indices).
  assert (IM : forall n, In n ms <-> In n layers /\ In (Z.of_nat n) indices).
  { intros n. unfold ms. rewrite in_flat_map. split.
    - intros (i & Hi & Hn). apply filter_In in Hn. destruct Hn as (Hn & E). apply Z.eqb_eq in E. subst i. auto.
    - intros (Hn & Hi). exists (Z.of_nat n). split; [exact Hi|]. apply filter_In. split; [exact Hn|apply Z.eqb_refl]. }
  assert (NM' : NoDup ms).
  { clear IM. unfold ms. clear ms. induction NI as [|i indices NII NI IH]; [constructor|]. cbn [flat_map].
    assert (DJ : forall a b : list nat, NoDup a -> NoDup b -> (forall n, In n a -> ~ In n b) -> NoDup (a ++ b)).
    { intros a b HA HB. induction HA as [|x a NX HA IHA]; intros DJ; [exact HB|]. cbn [Datatypes.app]. constructor.
      - intros H. apply in_app_or in H. destruct H as [H|H]; [contradiction|]. exact (DJ x (or_introl eq_refl) H).
      - apply IHA. intros n Hn. apply DJ. right. exact Hn. }
    apply DJ; [apply NoDup_filter; exact ND|exact IH|]. intros n Hn H. apply filter_In in Hn. destruct Hn as (_ & E). apply Z.eqb_eq in E.
    apply in_flat_map in H. destruct H as (j & Hj & H). apply filter_In in H. destruct H as (_ & E'). apply Z.eqb_eq in E'. apply NII. rewrite E, <- E'. exact Hj. }
  destruct (reorder_ok name NM f ms NM') as (so & P & S & E). exists so. split; [exact S|]. split; [|exact E].
  intros n. rewrite <- IM. split; apply Permutation_in; [apply Permutation_sym|]; exact P.
Qed.
Print Assumptions C77_python_selection_partial.

(** Only the last digit of a number is compared: layer 12 is not found by its
    number, and is found by number 2 (debug_tools.py:148). *)
Theorem C77_python_selection_refuted : forall {V} (name : nat -> text) (f : nat -> list V), (forall n, unbroken (name n)) ->
  extract_outputs_python (map f [2; 12]%nat, map (fun n => label (name n) n) [2; 12]%nat) [12] = Some ([], []) /\
  extract_outputs_python (map f [2; 12]%nat, map (fun n => label (name n) n) [2; 12]%nat) [2] = Some ([f 2%nat; f 12%nat], [label (name 2%nat) 2; label (name 12%nat) 12]).
Proof.
  intros V name f NM.
  assert (L12 : nth_error (rev (label (name 12%nat) 12)) 0 = Some "2"%char) by (unfold label; change (str (Z.of_nat 12)) with ["1"; "2"]%char; rewrite rev_app_distr; reflexivity).
  assert (L2 : nth_error (rev (label (name 2%nat) 2)) 0 = Some "2"%char) by (unfold label; change (str (Z.of_nat 2)) with ["2"]%char; rewrite rev_app_distr; reflexivity).
  assert (I2 : py_int ["2"%char] = Some 2) by reflexivity.
  split; unfold extract_outputs_python; cbn [collect map fst snd matching]; rewrite L2, L12; cbn [bind]; rewrite I2; cbn [bind].
  - reflexivity.
  - change (2 =? 2) with true. cbv iota. cbn [bind fst snd Datatypes.app].
    destruct (reorder_ok name NM f [2; 12]%nat) as (so & P & S & E); [repeat constructor; cbn; intuition discriminate|].
    assert (so = [2; 12]%nat) by (apply sorted_unique; [apply Permutation_sym; exact P|exact S|repeat constructor; lia]). subst so. exact E.
Qed.
Print Assumptions C77_python_selection_refuted.

(** In mode "keras" a model whose input is followed by a Softmax cannot be
    loaded (neural_network.py:365, an IndexError). *)
Theorem C77_softmax_first_refuted : forall softmax n l, softmax n = true -> load_debug_target true softmax (n :: l) [] = None.
Proof. intros softmax n l H. rewrite load_targets_all. cbn. rewrite H. reflexivity. Qed.
Print Assumptions C77_softmax_first_refuted.

(** The array printed by the C code is not declared, whatever the path: the code
    generated in modes "onnx" and "keras" does not compile. *)
Theorem C77_array_name_refuted : forall p, ~ in_scope (printed_array p).
Proof.
  assert (DIG : forall p c, In c (str (Z.of_nat p)) -> is_dec c = true) by (intros p c Hc; pose proof (str_digits (Z.of_nat p)) as F; rewrite Forall_forall in F; apply F; exact Hc).
  intros p H. inversion H as [s HS E|s suffix HS E].
  - assert (X : exists t, s = String.append "output_" t /\ forallb is_dec (list_ascii_of_string t) = true /\ t <> EmptyString).
    { exists (string_of_list_ascii (str (Z.of_nat p))). split; [|split].
      - rewrite <- (string_of_list_ascii_of_string s), E. unfold printed_array. reflexivity.
      - rewrite list_ascii_of_string_of_list_ascii. apply forallb_forall. intros c Hc. apply (DIG p). exact Hc.
      - intros Z. apply (str_nonempty (Z.of_nat p)). rewrite <- (list_ascii_of_string_of_list_ascii (str (Z.of_nat p))), Z. reflexivity. }
    destruct X as (t & -> & D & NE). cbn [String.append] in HS. unfold plain_names in HS.
    repeat (destruct HS as [HS|HS]; [try discriminate HS; injection HS as <-; discriminate D|]). destruct HS.
  - unfold printed_array in E. cbn [list_ascii_of_string Datatypes.app] in E. unfold numbered_names in HS.
    repeat (destruct HS as [<-|HS]; [discriminate E|]). destruct HS.
Qed.
Print Assumptions C77_array_name_refuted.

(** ** Example: the model of C08_example (channels_last), with decimal integers
    for the values. *)
Definition ex77_fmt (v : Z) : text := (if v <? 0 then ["-"%char] else []) ++ str (Z.abs v).
Definition ex77_parse (t : text) : option Z := match t with c :: r => if Ascii.eqb c "-" then option_map Z.opp (py_int r) else py_int t | [] => None end.
Lemma ex77_survives v : survives ex77_fmt ex77_parse v.
Proof.
  unfold survives, ex77_fmt, ex77_parse. split; [|split].
  - intros E. apply app_eq_nil in E. destruct E as (_ & E). exact (str_nonempty _ E).
  - apply Forall_app. split; [destruct (v <? 0); repeat constructor|apply str_unbroken].
  - destruct (Z.ltb_spec v 0) as [L|L]; cbn [Datatypes.app].
    + rewrite Ascii.eqb_refl, py_int_str by lia. cbn. f_equal. lia.
    + pose proof (py_int_str (Z.abs v) ltac:(lia)) as E. pose proof (str_digits (Z.abs v)) as F. destruct (str (Z.abs v)) as [|c r]; [discriminate|]. inversion F as [|? ? D]; subst.
      destruct (Ascii.eqb_spec c "-") as [->|_]; [discriminate D|]. rewrite E. f_equal. lia.
Qed.
Definition ex77_name (n : nat) : text := list_ascii_of_string (nth n ["Input_layer"; "Conv2D"; "Conv2D"; "Constant"; "Add"; "Flatten"; "Dense"]%string EmptyString).
Definition ex77_net := python_net Znum 0 ex_q ex_model ex_schedule.
Definition ex77_targets := [1; 2; 3; 4; 5; 6]%nat.
Example C77_example :
  supported Znum ex_model 0 /\ tri_topo (md_graph Znum ex_model) = Some ex_schedule /\ python_supported Znum ex_model /\ (forall n, unbroken (ex77_name n)) /\
  (exists targets, load_debug_target true (is_softmax ex77_name) (tl (order ex_schedule)) [] = Some targets) /\
  (forall n, In n (shown_layers Znum ex_model ex_schedule ex77_name true) -> 0 < md_size Znum ex_model n) /\
  declared ex77_net ex_schedule (ex_memory (ramp 9)) /\
  shown_layers Znum ex_model ex_schedule ex77_name true = [1; 2; 4; 5; 6]%nat /\
  option_map (fun r => string_of_list_ascii (debug_file ex77_name (layer_channels Znum ex_model) ex77_fmt (skipn 2 (snd r))))
    (run_layers_debug ex77_net (layer_constant Znum ex_model) ex77_targets ex_schedule (order ex_schedule) (ex_memory (ramp 9))) =
  Some ("Add 4 1 2 2 2" ++ String newline ("70 90 130 150 -5 -15 -35 -45 " ++ String newline ("Flatten 5 0   " ++ String newline ("70 -5 90 -15 130 -35 150 -45 " ++ String newline ("Dense 6 0   " ++ String newline ("440 -99 " ++ String newline ""))))))%string.
Proof.
  split; [exact (proj1 C08_example_supported)|]. split; [exact (proj1 C08_example)|]. split; [exact (proj2 C08_example_supported)|].
  split. { intros n. do 7 (destruct n as [|n]; [repeat constructor|]). destruct n; constructor. }
  split. { eexists. vm_compute. reflexivity. }
  split. { change (shown_layers Znum ex_model ex_schedule ex77_name true) with [1; 2; 4; 5; 6]%nat. intros n [<-|[<-|[<-|[<-|[<-|[]]]]]]; reflexivity. }
  split. { intros b. destruct b as [k|k| | |]; try reflexivity; unfold ex_memory, zlen; rewrite repeat_length; apply Z2Nat.id; [|unfold array_size, cst_size; apply max_list_nonneg].
    unfold array_size. destruct (Nat.ltb_spec k (max_path ex_schedule)); [vm_compute; discriminate|lia]. }
  split; vm_compute; reflexivity.
Qed.
