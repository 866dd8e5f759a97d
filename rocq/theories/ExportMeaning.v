(** * Every run of the exported graph gives the values of the documented network
    (the proof of C68). *)
From Coq Require Import String.
From Coq Require Import ZArith List Lia Bool Reals Lra QArith Permutation.
Import ListNotations.
Open Scope Z_scope.
From Verif Require Import CMem Tensor Num RealInst Activation Conv Pooling Movement Pad Linear Reduce Graph GraphSpec LayerKinds Net
  OnnxSpec OnnxOpsProofs ExportSpec Export ExportNames ExportRun ExportDet.
From Verif Require Broadcast BroadcastProofs.
Open Scope Z_scope.

Lemma map_tab2_act (f : R -> R) A B (g : Z -> Z -> R) : map f (tab2 A B g) = tab2 A B (fun i j => f (g i j)).
Proof. unfold tab2. apply map_tab. Qed.
(** The activation comes last. *)
Lemma meaning_act ninf q act (l : layer Rnum) xs :
  match lkind Rnum l with KInput4 _ _ _ _ | KInput _ _ | KConstant _ _ | KFlatten _ _ _ _ _ => False | _ => True end ->
  meaning_with Rnum ninf q act l xs = map act (meaning_with Rnum ninf q (fun v => v) l xs).
Proof.
  intros H. unfold meaning_with. destruct (lkind Rnum l); try (exfalso; exact H); clear H.
  all: try (destruct xs as [|x [|x' xs']]; try reflexivity).
  all: try (rewrite map_tab; reflexivity).
  all: try (rewrite map_tab2_act; reflexivity).
  all: try (rewrite map_tab3; reflexivity).
  all: try (rewrite map_map; reflexivity).
  - destruct xs'; [|reflexivity]. rewrite map_map. reflexivity.
  - unfold convolution. rewrite map_map. reflexivity.
  - unfold BroadcastProofs.broadcast_result. rewrite map_map. reflexivity.
  - unfold BroadcastProofs.broadcast_result. rewrite map_map. reflexivity.
  - unfold BroadcastProofs.broadcast_result. rewrite map_map. reflexivity.
Qed.

(** The node of a layer reads the operands of the layer first. *)
Lemma node_reads md ex n e nd : export_layer md ex n = Some e -> In nd (fst e) -> exists more, n_inputs nd = input_names md n ++ more.
Proof.
  intros H HN. unfold export_layer in H.
  assert (G : forall op a more inits, Some ([mkONode op a (input_names md n ++ more) (output_name md n)], inits) = Some e -> exists more, n_inputs nd = input_names md n ++ more).
  { intros op a more inits E. injection E as <-. destruct HN as [<-|[]]. exists more. reflexivity. }
  assert (G0 : forall op a inits, Some ([mkONode op a (input_names md n) (output_name md n)], inits) = Some e -> exists more, n_inputs nd = input_names md n ++ more).
  { intros op a inits E. injection E as <-. destruct HN as [<-|[]]. exists []. symmetry. apply app_nil_r. }
  destruct (lkind Rnum (md_layer Rnum md n)); try discriminate; try (injection H as <-; destruct HN; fail); try (eapply G; exact H); try (eapply G0; exact H).
  - destruct (lact Rnum (md_layer Rnum md n)); try (eapply G; exact H); try (eapply G0; exact H). injection H as <-. destruct HN.
  - destruct k; try discriminate; (destruct cst as [cst|]; [|match type of H with context [if ?b then _ else _] => destruct b end]); try (eapply G; exact H); try (eapply G0; exact H).
  - destruct (x_axes (ex n)); [discriminate|]. eapply G. exact H.
  - destruct (x_axes (ex n)); [discriminate|]. eapply G. exact H.
  - destruct (x_axes (ex n)); [discriminate|]. eapply G. exact H.
Qed.
Lemma exportable_reads l e od : ~ exportable l e [] od.
Proof.
  intros (_ & H). destruct (lkind Rnum l); try (exfalso; exact H).
  - destruct alpha, beta; exact H.
  - destruct H as (_ & _ & _ & _ & NE & E & _). destruct shapes; [congruence|discriminate].
  - destruct H as (_ & _ & _ & _ & _ & H). destruct k, cst; try exact H; try (destruct H as (H & _); congruence); try (destruct H as (H & _); discriminate H); destruct H as ([H|H] & _); discriminate H.
Qed.
Lemma exportable_exports md ex n dss od : exportable (md_layer Rnum md n) (ex n) dss od ->
  exists e nd, export_layer md ex n = Some e /\ fst e = [nd] /\ n_output nd = output_name md n.
Proof.
  intros (_ & H). unfold export_layer.
  destruct (lkind Rnum (md_layer Rnum md n)); try (exfalso; exact H).
  all: try (eexists _, _; split; [reflexivity|]; split; reflexivity).
  - destruct dss as [|d [|]]; try (exfalso; exact H). destruct H as (_ & H). destruct (lact Rnum (md_layer Rnum md n)); try (exfalso; exact H); eexists _, _; (split; [reflexivity|]; split; reflexivity).
  - destruct H as (_ & _ & _ & _ & _ & H).
    destruct k; try (exfalso; destruct cst; exact H); (destruct cst as [cst|]; [|match goal with |- context [if ?b then _ else _] => destruct b end]); eexists _, _; (split; [reflexivity|]; split; reflexivity).
Qed.

(** Association lists. *)
Fixpoint lookup {A} (nm : string) (l : list (string * A)) : option A :=
  match l with [] => None | (k, v) :: r => if String.eqb k nm then Some v else lookup nm r end.
Lemma lookup_in {A} nm (v : A) l : NoDup (map fst l) -> In (nm, v) l -> lookup nm l = Some v.
Proof.
  induction l as [|[k u] l IH]; intros ND H; [destruct H|]. cbn [map fst] in ND. inversion ND as [|? ? NI ND']; subst. cbn [lookup]. destruct (String.eqb_spec k nm) as [->|NE].
  - destruct H as [H|H]; [congruence|]. exfalso. apply NI. apply in_map_iff. exists (nm, v). split; [reflexivity|exact H].
  - destruct H as [H|H]; [congruence|]. apply IH; assumption.
Qed.
Lemma lookup_none {A} nm (l : list (string * A)) : ~ In nm (map fst l) -> lookup nm l = None.
Proof.
  induction l as [|[k u] l IH]; intros H; [reflexivity|]. cbn [lookup]. destruct (String.eqb_spec k nm) as [->|NE]; [exfalso; apply H; left; reflexivity|]. apply IH. intros G. apply H. right. exact G.
Qed.
(** Induction along a list of layers sorted by the graph. *)
Lemma sorted_induction g ls (P : nat -> Prop) : topological g ls ->
  (forall n, In n ls -> (forall p, In p (previous_layer g n) -> In p ls /\ P p) -> P n) -> forall n, In n ls -> P n.
Proof.
  intros T H. assert (G : forall l1 l2, ls = l1 ++ l2 -> forall n, In n l1 -> P n).
  { intros l1. induction l1 as [|m l1 IH] using rev_ind; intros l2 E n Hn; [destruct Hn|]. rewrite <- app_assoc in E. apply in_app_or in Hn. destruct Hn as [Hn|[<-|[]]].
    - eapply IH; eassumption.
    - apply H; [rewrite E; apply in_or_app; right; left; reflexivity|]. intros p Hp. pose proof (T l1 m l2 E p Hp) as Hl. split; [rewrite E; apply in_or_app; left; exact Hl|]. eapply IH; eassumption. }
  intros n Hn. apply (G ls [] (eq_sym (app_nil_r ls)) n Hn).
Qed.

Section Whole.
  Context (ninf : R) (q : Q -> R) (md : model Rnum) (ex : nat -> extra) (s : schedule) (x : list R) (val : nat -> list R) (dims : nat -> list Z) (ls : list nat).
  Notation gr := (md_graph Rnum md).
  Notation prevs n := (previous_layer gr n).
  Hypothesis (WL : well_listed md ls) (IN : incl ls (dnn gr)).
  Hypothesis EV : evaluates (documented_net Rnum ninf q md s) x val.
  Hypothesis SZ : forall n, In n ls -> sized (dims n).
  Hypothesis HI : forall n, In n ls -> input_kind md n -> dims n = x_shape (ex n) /\ zlen (md_pre Rnum md s x) = prod (dims n).
  Hypothesis HX : forall n, In n ls -> ~ input_kind md n -> exportable (md_layer Rnum md n) (ex n) (map dims (prevs n)) (dims n).

  Lemma kinds n : In n ls -> input_kind md n \/ ~ input_kind md n.
  Proof. intros _. unfold input_kind. destruct (lk Rnum md n); auto. Qed.
  Lemma input_value n : In n ls -> input_kind md n -> val n = md_pre Rnum md s x /\ prevs n = [] /\ lact Rnum (md_layer Rnum md n) = LinearAct /\
    ins_of md ex n = [(base md n, dims n)] /\ inits_of md ex n = [] /\ nodes_of md ex n = [] /\ fused md n = false /\
    exists i e, export_input md ex n = Some i /\ export_layer md ex n = Some e.
  Proof.
    intros Hn K. pose proof (wl_sources _ _ WL n Hn (or_introl K)) as PE. pose proof (wl_plain _ _ WL n Hn K) as LA. destruct (HI n Hn K) as (D & _).
    pose proof (EV n (IN n Hn)) as V. cbn [net_graph documented_net net_with forward pre] in V. rewrite PE in V.
    unfold input_kind, lk in K. split.
    { rewrite V. unfold meaning, meaning_with. destruct (lkind Rnum (md_layer Rnum md n)); try (exfalso; exact K); reflexivity. }
    split; [exact PE|]. split; [exact LA|]. unfold ins_of, inits_of, nodes_of, export_input, export_layer, export_fused, fused. rewrite PE, LA, D.
    destruct (lkind Rnum (md_layer Rnum md n)); try (exfalso; exact K); (repeat (split; [reflexivity|])); eexists _, _; split; reflexivity.
  Qed.
  Lemma layer_value n : In n ls -> ~ input_kind md n ->
    (if fused md n then val n = map (compute Rnum (lact Rnum (md_layer Rnum md n))) (before_activation ninf q md val n) else val n = node_value ninf q md val n) /\
    prevs n <> [] /\ ins_of md ex n = [] /\
    exists i e nd, export_input md ex n = Some i /\ export_layer md ex n = Some e /\ fst e = [nd] /\ n_output nd = output_name md n.
  Proof.
    intros Hn K. pose proof (HX n Hn K) as X. assert (NE : prevs n <> []) by (intros E; rewrite E in X; exact (exportable_reads _ _ _ X)).
    pose proof (EV n (IN n Hn)) as V. cbn [net_graph documented_net net_with forward pre] in V.
    assert (V' : val n = meaning Rnum ninf q (md_layer Rnum md n) (operands md val n)) by (unfold operands; destruct (prevs n); [congruence|exact V]). clear V.
    split; [|split; [exact NE|split]].
    - unfold node_value. destruct (fused md n) eqn:F; [|exact V']. rewrite V'. unfold meaning, before_activation.
      destruct (lkind Rnum (md_layer Rnum md n)) eqn:KE; try (apply meaning_act; rewrite KE; exact I); exfalso; destruct X as (_ & X); rewrite KE in X; try exact X.
      destruct (map dims (prevs n)) as [|? [|]]; try exact X. destruct X as (_ & LA & _). unfold fused in F. rewrite KE, LA in F. discriminate.
    - unfold ins_of, export_input. destruct (prevs n); [congruence|reflexivity].
    - destruct (exportable_exports md ex n _ _ X) as (e & nd & H1 & H2 & H3). eexists _, e, nd. split; [|split; [exact H1|split; [exact H2|exact H3]]].
      unfold export_input. destruct (prevs n); [congruence|reflexivity].
  Qed.
  Lemma all_exported n : In n ls -> exists i e, export_input md ex n = Some i /\ export_layer md ex n = Some e.
  Proof.
    intros Hn. destruct (kinds n Hn) as [K|K].
    - apply (input_value n Hn K).
    - destruct (layer_value n Hn K) as (_ & _ & _ & i & e & nd & H1 & H2 & _). exists i, e. split; assumption.
  Qed.

  (** The tensors of a run. *)
  Definition table (n : nat) : list (string * tensor) :=
    (base md n, TFloat (dims n) (val n)) ::
    (if fused md n then [(named md n "_pre_activation", TFloat (dims n) (before_activation ninf q md val n))] else []) ++ inits_of md ex n.
  Definition the_run (nm : string) : option tensor := lookup nm (flat_map table ls).
  Lemma table_keys n : In n ls -> Permutation (map fst (table n)) (keys md ex n).
  Proof.
    intros Hn. rewrite keys_split by (apply all_exported; exact Hn). unfold table. cbn [map fst].
    destruct (kinds n Hn) as [K|K].
    - destruct (input_value n Hn K) as (_ & _ & _ & -> & -> & -> & -> & _). reflexivity.
    - destruct (layer_value n Hn K) as (_ & _ & -> & i & e & nd & _ & E & EN & EO). unfold nodes_of, inits_of. rewrite E, EN. cbn [map Datatypes.app].
      destruct (fused_parts md n) as (_ & FN). rewrite FN, EO. unfold fused_suffixes. rewrite output_named. destruct (fused md n); cbn [snd map fst Datatypes.app].
      + rewrite !named_nil. apply Permutation_trans with (map fst (snd e ++ snd (export_fused md n)) ++ [base md n; named md n "_pre_activation"]).
        * apply Permutation_sym. apply (Permutation_app_comm _ [_; _]).
        * apply Permutation_app_head. apply perm_swap.
      + rewrite named_nil. apply Permutation_cons_append.
  Qed.
  Lemma table_nodup : NoDup (map fst (flat_map table ls)).
  Proof.
    eapply Permutation_NoDup; [|apply (keys_nodup md ex ls (wl_once _ _ WL) (wl_plain _ _ WL))]. apply Permutation_sym.
    pose proof table_keys as TK. revert TK. clear. induction ls as [|n r IH]; intros TK; [reflexivity|]. cbn [flat_map]. rewrite map_app. apply Permutation_app; [apply TK; left; reflexivity|].
    apply IH. intros m Hm. apply TK. right. exact Hm.
  Qed.
  Lemma run_of n nm t : In n ls -> In (nm, t) (table n) -> the_run nm = Some t.
  Proof. intros Hn H. apply lookup_in; [exact table_nodup|]. apply in_flat_map. exists n. split; assumption. Qed.
  Lemma run_empty : the_run ""%string = None.
  Proof.
    apply lookup_none. intros H. apply in_map_iff in H. destruct H as ((nm & t) & E & H). cbn [fst] in E. subst nm. apply in_flat_map in H. destruct H as (n & Hn & H).
    assert (IK : In ""%string (keys md ex n)) by (eapply Permutation_in; [apply table_keys; exact Hn|]; apply in_map_iff; exists (""%string, t); split; [reflexivity|exact H]).
    apply keys_named in IK; [|apply (wl_plain _ _ WL); exact Hn]. destruct IK as (sf & _ & E). symmetry in E. exact (named_not_empty md n sf E).
  Qed.
  Lemma run_base n : In n ls -> the_run (base md n) = Some (TFloat (dims n) (val n)).
  Proof. intros Hn. apply (run_of n); [exact Hn|left; reflexivity]. Qed.
  Lemma run_init n nm t : In n ls -> In (nm, t) (inits_of md ex n) -> the_run nm = Some t.
  Proof. intros Hn H. apply (run_of n); [exact Hn|]. right. apply in_or_app. right. exact H. Qed.

  (** Tensors have as many elements as their dimensions say. *)
  Lemma lengths n : In n ls -> zlen (val n) = prod (dims n).
  Proof.
    revert n. apply (sorted_induction gr ls); [apply (wl_order _ _ WL)|]. intros n Hn IH. destruct (kinds n Hn) as [K|K].
    - destruct (input_value n Hn K) as (-> & _). apply (HI n Hn K).
    - destruct (layer_value n Hn K) as (V & NE & _ & i & e & nd & _ & E & EN & _).
      destruct (layer_holds ninf q md ex val dims the_run n (HX n Hn K)) as (e' & nd' & E' & EN' & _ & NH).
      { split; [exact run_empty|]. split.
        - intros p Hp. destruct (IH p Hp) as (Hl & L). split; [apply run_base; exact Hl|exact L].
        - intros nm t H. apply (run_init n); assumption. }
      rewrite E in E'. injection E' as <-. rewrite EN in EN'. injection EN' as <-.
      destruct (node_reads md ex n e nd E) as (more & NR); [rewrite EN; left; reflexivity|].
      apply node_length in NH.
      + destruct (fused md n) eqn:F; rewrite V; [rewrite zlen_map; unfold node_value in NH; rewrite F in NH; exact NH|exact NH].
      + intros ds v H. rewrite NR in H. unfold input_names in H. destruct (prevs n) as [|p ps] eqn:EP; [congruence|]. cbn [map hd Datatypes.app] in H.
        destruct (IH p (or_introl eq_refl)) as (Hl & L). rewrite (run_base p Hl) in H. injection H as <- <-. exact L.
  Qed.
  Lemma known env n : In n ls -> env ""%string = None -> (forall p, In p (prevs n) -> env (base md p) = Some (TFloat (dims p) (val p))) ->
    (forall nm t, In (nm, t) (inits_of md ex n) -> env nm = Some t) -> operands_known md ex val dims env n.
  Proof.
    intros Hn E0 EP EI. split; [exact E0|]. split; [|exact EI]. intros p Hp. split; [apply EP; exact Hp|]. apply lengths.
    destruct (in_split n ls Hn) as (l1 & l2 & EL). rewrite EL. apply in_or_app. left. apply (wl_order _ _ WL l1 n l2 EL p Hp).
  Qed.
  Lemma prev_in n p : In n ls -> In p (prevs n) -> In p ls.
  Proof. intros Hn Hp. destruct (in_split n ls Hn) as (l1 & l2 & EL). rewrite EL. apply in_or_app. left. apply (wl_order _ _ WL l1 n l2 EL p Hp). Qed.

  Definition exported : onnx_graph := mkOGraph (flat_map (ins_of md ex) ls) (flat_map (inits_of md ex) ls) (flat_map (nodes_of md ex) ls) (flat_map (outs_of md ex) ls).
  Lemma is_exported : export_layers md ex ls = Some exported.
  Proof. apply export_layers_some. exact all_exported. Qed.

  Lemma some_run : runs exported (fun _ => md_pre Rnum md s x) the_run.
  Proof.
    split; [exact run_empty|]. cbn [exported g_inputs g_init g_nodes]. split; [|split].
    - intros nm ds H. apply in_flat_map in H. destruct H as (n & Hn & H). destruct (kinds n Hn) as [K|K].
      + destruct (input_value n Hn K) as (V & _ & _ & EI & _). rewrite EI in H. destruct H as [H|[]]. injection H as <- <-. rewrite (run_base n Hn), V. reflexivity.
      + destruct (layer_value n Hn K) as (_ & _ & EI & _). rewrite EI in H. destruct H.
    - intros nm t H. apply in_flat_map in H. destruct H as (n & Hn & H). apply (run_init n); assumption.
    - intros nd0 H. apply in_flat_map in H. destruct H as (n & Hn & H). destruct (kinds n Hn) as [K|K].
      + destruct (input_value n Hn K) as (_ & _ & _ & _ & _ & EN & _). rewrite EN in H. destruct H.
      + destruct (layer_value n Hn K) as (V & NE & _ & i & e & nd & _ & E & EN & EO).
        destruct (layer_holds ninf q md ex val dims the_run n (HX n Hn K)) as (e' & nd' & E' & EN' & _ & NH).
        { apply known; [exact Hn|exact run_empty| |].
          - intros p Hp. apply run_base. apply (prev_in n); assumption.
          - intros nm t G. apply (run_init n); assumption. }
        rewrite E in E'. injection E' as <-. rewrite EN in EN'. injection EN' as <-.
        unfold nodes_of in H. rewrite E, EN in H. cbn [Datatypes.app] in H. destruct H as [<-|H].
        * eexists. split; [|exact NH]. rewrite EO. unfold output_name, node_value. unfold node_value in V. destruct (fused md n) eqn:F.
          -- apply (run_of n); [exact Hn|]. unfold table. rewrite F. right. left. reflexivity.
          -- rewrite (run_base n Hn), V. reflexivity.
        * destruct (fused_node md ex n nd0 H) as (F & EB & _).
          destruct (fused_holds ninf q md ex val dims the_run n (HX n Hn K) F) as (nf & FE & _ & NF).
          { apply (run_of n); [exact Hn|]. unfold table. rewrite F. right. left. reflexivity. }
          { intros nm t G. apply (run_init n); assumption. }
          { exists e. exact E. }
          rewrite FE in H. destruct H as [<-|[]]. eexists. split; [|exact NF]. rewrite EB, (run_base n Hn). rewrite F in V. rewrite V. reflexivity.
  Qed.

  Lemma every_run env : runs exported (fun _ => md_pre Rnum md s x) env -> forall n, In n ls -> env (base md n) = Some (TFloat (dims n) (val n)).
  Proof.
    intros (E0 & RI & RT & RN). cbn [exported g_inputs g_init g_nodes] in *.
    apply (sorted_induction gr ls); [apply (wl_order _ _ WL)|]. intros n Hn IH. destruct (kinds n Hn) as [K|K].
    - destruct (input_value n Hn K) as (V & _ & _ & EI & _). rewrite V. apply (RI (base md n) (dims n)). apply in_flat_map. exists n. split; [exact Hn|]. rewrite EI. left. reflexivity.
    - destruct (layer_value n Hn K) as (V & NE & _ & i & e & nd & _ & E & EN & EO).
      assert (KI : forall nm t, In (nm, t) (inits_of md ex n) -> env nm = Some t).
      { intros nm t H. apply RT. apply in_flat_map. exists n. split; assumption. }
      destruct (layer_holds ninf q md ex val dims env n (HX n Hn K)) as (e' & nd' & E' & EN' & _ & NH).
      { apply known; [exact Hn|exact E0| |exact KI]. intros p Hp. apply (IH p Hp). }
      rewrite E in E'. injection E' as <-. rewrite EN in EN'. injection EN' as <-.
      destruct (RN nd) as (out & EV1 & NH1). { apply in_flat_map. exists n. split; [exact Hn|]. unfold nodes_of. rewrite E, EN. left. reflexivity. }
      destruct (node_reads md ex n e nd E) as (more & NR); [rewrite EN; left; reflexivity|].
      assert (FIRST : forall ds v, hd None (map env (n_inputs nd)) = Some (TFloat ds v) -> sized ds).
      { intros ds v H. rewrite NR in H. unfold input_names in H. destruct (prevs n) as [|p ps] eqn:EP; [congruence|]. cbn [map hd Datatypes.app] in H.
        destruct (IH p (or_introl eq_refl)) as (Hl & L). rewrite L in H. injection H as <- <-. apply SZ. exact Hl. }
      pose proof (node_det _ _ _ _ _ _ NH NH1 (SZ n Hn) FIRST) as D. subst out. rewrite EO in EV1. unfold output_name in EV1.
      unfold node_value in *. destruct (fused md n) eqn:F; [|rewrite V; exact EV1].
      destruct (fused_holds ninf q md ex val dims env n (HX n Hn K) F EV1 KI) as (nf & FE & FO & NF); [exists e; exact E|].
      destruct (RN nf) as (out & EV2 & NH2). { apply in_flat_map. exists n. split; [exact Hn|]. unfold nodes_of. rewrite E, FE. apply in_or_app. right. left. reflexivity. }
      assert (FIRST2 : forall ds v, hd None (map env (n_inputs nf)) = Some (TFloat ds v) -> sized ds).
      { intros ds v H. assert (HN : hd ""%string (n_inputs nf) = named md n "_pre_activation").
        { clear -FE. unfold export_fused in FE. destruct (fused md n); [|discriminate]. destruct (lact Rnum (md_layer Rnum md n)); cbn [fst] in FE; try discriminate; injection FE as <-; reflexivity. }
        destruct (n_inputs nf) as [|a r]; [discriminate|]. cbn [hd] in HN. subst a. cbn [map hd] in H. rewrite EV1 in H. injection H as <- <-. apply SZ. exact Hn. }
      pose proof (node_det _ _ _ _ _ _ NF NH2 (SZ n Hn) FIRST2) as D. subst out. rewrite FO in EV2. rewrite V. exact EV2.
  Qed.
End Whole.
