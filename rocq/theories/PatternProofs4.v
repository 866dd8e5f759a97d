(** * From the imported model to the optimised code. *)
From Coq Require Import ZArith List Lia Bool QArith Sorted Permutation.
Import ListNotations.
From Verif Require Import CMem Tensor Num Activation Conv Graph GraphSpec GraphProofs GraphProofs3 GraphProofs4 GraphProofs6 Net NetProofs LayerKinds
  FuseProofs Pattern PatternProofs PatternProofs2 PatternProofs3 ModelProofs FuseValues FusionSafe.
From Verif Require Broadcast.
Open Scope nat_scope.

Section Proofs.
  Context (N : num) (ninf : T N) (q : Q -> T N).
  Notation V := (T N).
  Notation pnet := (pnet N).
  Notation mem := (mem V).
  Implicit Types st : pnet.

  (** ** The generated code of a state is that of its model and schedule. *)
  Lemma all_some_map (f : nat -> option bname) (h : nat -> bname) l : (forall a, In a l -> f a = Some (h a)) -> all_some (map f l) = Some (map h l).
  Proof.
    induction l as [|x l IH]; intros H; [reflexivity|]. cbn. rewrite (H x (or_introl eq_refl)). cbn [bind].
    rewrite IH by (intros a Ha; apply H; right; exact Ha). reflexivity.
  Qed.

  Lemma pn_run_layer_eq inp st n m : pinv N inp st -> In n (pn_layers N st) ->
    pn_run_layer N ninf q st m n = run_layer (documented_net N ninf q (model_of N st) (schedule_of N st)) (schedule_of N st) m n.
  Proof.
    intros PV Hn. unfold run_layer, sources. cbn [documented_net LayerKinds.documented_net net_with net_graph model_of md_graph graph_of previous_layer code size md_layer md_last].
    rewrite (sched_path N st n Hn), (sched_saved N st n Hn).
    unfold pn_run_layer, pn_sources. destruct (pn_prev N st n) as [|p0 ps0] eqn:EP; [reflexivity|]. rewrite <- EP.
    rewrite (all_some_map _ (pn_str N st)); [reflexivity|].
    intros a Ha. apply (pv_str N inp st PV). apply (links_closed _ (sp_linked N _ inp (pv_supported N inp st PV)) n a Hn). right. exact Ha.
  Qed.
  Lemma pn_run_layers_eq inp st : pinv N inp st -> forall l m, incl l (pn_layers N st) ->
    pn_run_layers N ninf q st l m = run_layers (documented_net N ninf q (model_of N st) (schedule_of N st)) (schedule_of N st) l m.
  Proof.
    intros PV. induction l as [|n l IH]; intros m Hl; [reflexivity|]. cbn [pn_run_layers run_layers].
    rewrite (pn_run_layer_eq inp st n m PV (Hl n (or_introl eq_refl))). destruct (run_layer _ _ m n); [|reflexivity]. cbn [bind].
    apply IH. intros y Hy. apply Hl. right. exact Hy.
  Qed.
  Lemma last_layer_in inp st : pinv N inp st -> In (last (pn_layers N st) O) (pn_layers N st).
  Proof.
    intros PV. pose proof (rn_nonempty _ _ (pv_runnable N inp st PV)) as NE. cbn in NE.
    rewrite (app_removelast_last O NE) at 2. apply in_or_app. right. left. reflexivity.
  Qed.
  Lemma pn_inference_eq inp st m : pinv N inp st ->
    pn_inference N ninf q st m = inference (documented_net N ninf q (model_of N st) (schedule_of N st)) (schedule_of N st) m.
  Proof.
    intros PV. unfold pn_inference, inference. cbn [schedule_of order]. rewrite (pn_run_layers_eq inp st PV) by apply incl_refl.
    destruct (run_layers _ _ _ m) as [m1|]; [|reflexivity]. cbn [bind].
    change (map (fun n => (n, pn_path N st n)) (pn_layers N st)) with (paths (schedule_of N st)).
    rewrite (sched_path N st _ (last_layer_in inp st PV)). reflexivity.
  Qed.

  Lemma pinv_code inp st m : pinv N inp st -> pn_declared N ninf q st m ->
    forall val, evaluates (documented_net N ninf q (model_of N st) (schedule_of N st)) (m NnIn) val ->
    exists m', pn_inference N ninf q st m = Some m' /\
      m' NnOut = md_post N (model_of N st) (schedule_of N st) (val (last (pn_layers N st) O)) /\
      pn_declared N ninf q st m' /\ m' NnIn = m NnIn.
  Proof.
    intros PV D val EV. rewrite (pn_inference_eq inp st m PV).
    apply (model_inference_run N ninf q (model_of N st) inp (schedule_of N st) (pv_supported N inp st PV) (pv_runnable N inp st PV)); [|exact D|exact EV].
    pose proof (sp_single N _ inp (pv_supported N inp st PV)) as (H & _). cbn in *. destruct (pn_layers N st); [discriminate|]. injection H as ->. reflexivity.
  Qed.
  Lemma pinv_python inp st x : pinv N inp st -> python_supported N (model_of N st) -> zlen x = out_size N (kind_of N st inp) ->
    forall val, evaluates (documented_net N ninf q (model_of N st) (schedule_of N st)) x val ->
    pn_compute_inference N ninf q st x = Some (md_post N (model_of N st) (schedule_of N st) (val (last (pn_layers N st) O))).
  Proof.
    intros PV PS Hx val EV.
    apply (model_python_run N ninf q (model_of N st) inp (schedule_of N st) (pv_supported N inp st PV) (pv_runnable N inp st PV)); [|exact PS|exact Hx|exact EV].
    pose proof (sp_single N _ inp (pv_supported N inp st PV)) as (H & _). cbn in *. destruct (pn_layers N st); [discriminate|]. injection H as ->. reflexivity.
  Qed.

  (** ** The imported model *)
  Context (md : model N) (inp : nat) (s : schedule).
  Hypothesis SP : supported N md inp.
  Hypothesis HS : tri_topo (md_graph N md) = Some s.
  Hypothesis IDS : StronglySorted lt (order s).
  Notation g := (md_graph N md).
  Notation st0 := (initial N md s).
  Notation g0 := (graph_of N st0).
  Notation s0 := (schedule_of N st0).

  Lemma IO0 n : In n (order s) <-> In n (dnn g).
  Proof. exact (IO N ninf q md inp s SP HS n). Qed.
  Lemma const0 n : In n (order s) -> is_constant g0 n = is_constant g n.
  Proof.
    intros Hn. apply IO0 in Hn. pose proof (sp_constants N md inp SP n Hn) as [H1 H2]. cbn. unfold kind_of. cbn. unfold lk in *.
    destruct (is_constant g n).
    - destruct (H1 eq_refl) as (w & ->). reflexivity.
    - destruct (lkind N (md_layer N md n)); try reflexivity. discriminate H2. eexists. reflexivity.
  Qed.
  Lemma single0 : single_input g0 inp.
  Proof.
    pose proof (sp_single N md inp SP) as (H1 & H2 & H3 & H4). pose proof (hd_is_input N md inp s SP HS) as HH.
    pose proof (rn_nonempty _ _ (supported_runnable N md inp s SP HS)) as NE.
    assert (Hi : In inp (order s)).
    { apply IO0. destruct (dnn g); [discriminate|]. injection H1 as ->. left. reflexivity. }
    split; [|split; [|split]].
    - cbn. destruct (order s); [congruence|]. cbn in HH. rewrite HH. reflexivity.
    - rewrite (const0 inp Hi). exact H2.
    - exact H3.
    - intros n Hn NI Hc. cbn in Hn. rewrite (const0 n Hn) in Hc. apply IO0 in Hn. destruct (H4 n Hn NI Hc) as (p & Hp & Ep).
      exists p. split; [exact Hp|]. rewrite (const0 p); [exact Ep|]. apply IO0. apply (links_closed g (sp_linked N md inp SP) n p Hn). right. exact Hp.
  Qed.
  Lemma supported0 : supported N (model_of N st0) inp.
  Proof.
    pose proof (supported_runnable N md inp s SP HS) as RN. pose proof single0 as S1.
    destruct SP as [A1 A2 A3 A4 A5 A6 A7 A8 A9]. constructor; cbn [model_of md_graph].
    - constructor; cbn.
      + eapply Permutation_NoDup; [apply (rn_perm _ _ RN)|apply A1].
      + intros p c Hp Hc. apply (links_symmetric g A1); apply IO0; assumption.
      + intros l i Hl Hi. apply IO0. apply IO0 in Hl. exact (links_closed g A1 l i Hl Hi).
    - destruct A2 as (rank & HR). exists rank. cbn. intros p c Hp Hc. apply HR; [apply IO0; exact Hp|exact Hc].
    - intros n Hn. apply A3. apply IO0. exact Hn.
    - intros n Hn. cbn. unfold kind_of, lk. cbn. destruct (lkind N (md_layer N md n)); cbn; split; intros HH;
        first [discriminate HH|destruct HH as (? & HH); discriminate HH|eexists; reflexivity|reflexivity].
    - intros n Hn Hc. cbn in Hn. rewrite (const0 n Hn) in Hc. apply A5; [apply IO0; exact Hn|exact Hc].
    - exact S1.
    - exact A7.
    - intros n Hn Hp. apply A8; [apply IO0; exact Hn|exact Hp].
    - intros n p cl C H W Hn. apply A9. apply IO0. exact Hn.
  Qed.
  Lemma saved0 n : saved_in N st0 n = dget (csts s) n.
  Proof. reflexivity. Qed.
  Lemma path0 n : In n (order s) -> dget (paths s0) n = dget (paths s) n.
  Proof.
    intros Hn. rewrite (sched_path N st0 n Hn). cbn.
    destruct (rn_paths _ _ (supported_runnable N md inp s SP HS) n Hn) as (k & -> & _). reflexivity.
  Qed.
  Lemma cst0 n : In n (order s) -> dget (csts s0) n = dget (csts s) n.
  Proof. intros Hn. rewrite (sched_saved N st0 n Hn). reflexivity. Qed.
  Lemma out0 n : In n (order s) -> output_str s0 n = output_str s n.
  Proof. intros Hn. unfold output_str. rewrite (cst0 n Hn), (path0 n Hn). reflexivity. Qed.
  Lemma runnable0 : runnable g0 s0.
  Proof.
    pose proof (supported_runnable N md inp s SP HS) as RN. destruct RN as [R1 R2 R3 R4 R5 R6 R7].
    constructor; cbn [schedule_of order].
    - cbn. reflexivity.
    - exact R2.
    - intros i Hi. rewrite (path0 i Hi). exact (R3 i Hi).
    - intros l1 p l2 n l3 c b E Hc Hp Hb. cbn in E.
      assert (Ip : In p (order s)) by (rewrite E; apply in_or_app; right; left; reflexivity).
      assert (In_ : In n (order s)) by (rewrite E; apply in_or_app; right; right; apply in_or_app; right; left; reflexivity).
      rewrite (out0 p Ip) in Hb. rewrite (path0 n In_), (cst0 n In_). exact (R4 l1 p l2 n l3 c b E Hc Hp Hb).
    - intros p Hp. rewrite (cst0 p Hp). exact (R5 p Hp).
    - intros n p Hn Ep En. rewrite (path0 n Hn). rewrite (path0 p).
      + exact (R6 n p Hn Ep En).
      + apply IO0. apply IO0 in Hn. apply (links_closed g (sp_linked N md inp SP) n p Hn). right. cbn in Ep. rewrite Ep. left. reflexivity.
    - exact R7.
  Qed.
  Lemma pinv0 : pinv N inp st0.
  Proof.
    constructor.
    - exact supported0.
    - exact runnable0.
    - intros a Ha. cbn in Ha. rewrite (out0 a Ha). cbn. unfold output_str.
      destruct (rn_paths _ _ (supported_runnable N md inp s SP HS) a Ha) as (k & -> & _). destruct (dget (csts s) a); reflexivity.
    - intros a b Ha Hb Pb Na NI. cbn in *. apply IO0 in Ha, Hb. destruct SP as [A1 A2 A3 A4 A5 A6 A7 A8 A9].
      apply (tri_topo_chains g inp s A1 A2 A3 A5 A6 HS a b Ha Hb Pb Na NI).
    - cbn. rewrite map_id. exact IDS.
    - intros k Hk. cbn in *. exists k. split; [|reflexivity].
      destruct (in_dec Nat.eq_dec k (order s)) as [H|H]; [exact H|]. exfalso. apply Hk.
      destruct SP as [A1 A2 A3 A4 A5 A6 A7 A8 A9].
      apply (gs_cst_none g s (tri_topo_is_good g s A1 A2 A3 A5 (single_input_no_constant_expression g inp A6 A5) HS)). exact H.
  Qed.

  Lemma safe0 : fusion_safe N md inp -> fusion_safe N (model_of N st0) inp.
  Proof.
    intros [F1 F2 F3 F3' F4 F5]. constructor; cbn; intros.
    - apply (F1 p n); try assumption; apply IO0; assumption.
    - apply (F2 n); try assumption; apply IO0; assumption.
    - apply (F3 p n C H W sc me va bi eps d); try assumption; apply IO0; assumption.
    - apply (F3' p n); try assumption; apply IO0; assumption.
    - apply (F4 H n); try assumption; apply IO0; assumption.
    - apply (F5 p n m); try assumption; apply IO0; assumption.
  Qed.
  Lemma python_safe0 : python_safe N md -> python_safe N (model_of N st0).
  Proof.
    intros [[P1 P2] P3]. constructor; [split|]; cbn; intros.
    - apply P1. apply IO0. assumption.
    - apply (P2 H n); try assumption. apply IO0. assumption.
    - apply (P3 p n); try assumption; apply IO0; assumption.
  Qed.
  Lemma evaluates0 x val : evaluates (documented_net N ninf q md s) x val <->
    evaluates (documented_net N ninf q (model_of N st0) s0) x val.
  Proof. split; intros H n Hn; apply H; apply IO0; exact Hn. Qed.

  Theorem optimised_code (FS : fusion_safe N md inp) : exists st, optimise N st0 = Done N st /\ pinv N inp st /\
    (python_safe N md -> python_safe N (model_of N st)) /\
    forall x val, evaluates (documented_net N ninf q md s) x val ->
      exists val', evaluates (documented_net N ninf q (model_of N st) (schedule_of N st)) x val' /\
        md_post N (model_of N st) (schedule_of N st) (val' (last (pn_layers N st) O)) =
        md_post N md s (val (last (order s) O)).
  Proof.
    destruct (optimise_keeps N ninf q inp st0 pinv0 (safe0 FS)) as (st & E & K). exists st.
    split; [exact E|]. split; [apply K|]. split; [intros P; apply K; apply python_safe0; exact P|].
    intros x val EV. apply (kp_value _ _ _ _ _ _ K x val). apply evaluates0. exact EV.
  Qed.
End Proofs.
