(** * Values computed by an imported ONNX model (used by C72). *)
From Coq Require Import String.
From Coq Require Import ZArith List Lia Bool Reals QArith Permutation.
Import ListNotations.
Open Scope list_scope.
Open Scope Z_scope.
From Verif Require Import CMem Tensor Num RealInst Graph GraphSpec Import ImportSpec ImportOnnxProofs PropertiesImport PropertiesGraph ImportConstants ImportChains LayerKinds Net NetProofs OnnxOps.
From Verif Require Activation.
From Verif Require Import OnnxSpec OnnxOpsProofs ExportSpec OnnxModelSpec OnnxModel OnnxModelOps OnnxModelNode.

Lemma find_last_in {A} (l : list (string * A)) nm v : find_last l nm = Some v -> In (nm, v) l.
Proof.
  induction l as [|(k, u) l IH]; cbn [find_last]; [discriminate|]. destruct (find_last l nm); [intros E; injection E as ->; right; apply IH; reflexivity|].
  destruct (String.eqb_spec k nm) as [->|]; [|discriminate]. intros E. injection E as ->. left. reflexivity.
Qed.
Lemma find_last_some {A} (l : list (string * A)) nm v : In (nm, v) l -> exists u, find_last l nm = Some u.
Proof.
  induction l as [|(k, u) l IH]; [intros []|]. intros [E|H]; cbn [find_last].
  - injection E as -> ->. rewrite String.eqb_refl. destruct (find_last l nm); eauto.
  - destruct (IH H) as (w & ->). eauto.
Qed.
Lemma raw_announced m nm ds : announced m nm ds -> announced m nm (raw_shape m nm).
Proof.
  unfold announced, raw_shape. intros H. destruct (find_last (s_outputs m) nm) eqn:E1; [apply in_or_app; right; apply in_or_app; right; apply find_last_in; exact E1|].
  destruct (find_last (s_inputs m) nm) eqn:E2; [apply in_or_app; left; apply find_last_in; exact E2|]. destruct (find_last (s_value_info m) nm) eqn:E3; [apply in_or_app; right; apply in_or_app; left; apply find_last_in; exact E3|].
  exfalso. apply in_app_iff in H. destruct H as [H|H]; [destruct (find_last_some _ _ _ H); congruence|]. apply in_app_iff in H. destruct H as [H|H]; destruct (find_last_some _ _ _ H); congruence.
Qed.
Lemma find_first_in {A} (l : list (string * A)) nm v : NoDup (map fst l) -> In (nm, v) l -> find_first l nm = Some v.
Proof.
  induction l as [|(k, u) l IH]; [intros _ []|]. cbn [map fst find_first]. intros ND H. inversion ND as [|? ? NI ND']; subst. destruct H as [E|H].
  - injection E as -> ->. rewrite String.eqb_refl. reflexivity.
  - destruct (String.eqb_spec k nm) as [->|]; [destruct NI; apply in_map_iff; exists (nm, v); split; [reflexivity|exact H]|]. apply IH; assumption.
Qed.
Lemma find_first_none {A} (l : list (string * A)) nm : ~ In nm (map fst l) -> find_first l nm = None.
Proof.
  induction l as [|(k, u) l IH]; [reflexivity|]. cbn [map fst find_first]. intros H. destruct (String.eqb_spec k nm) as [->|]; [destruct H; left; reflexivity|]. apply IH. intros H'. apply H. right. exact H'.
Qed.
Lemma Forall2_split_r {A B} (P : A -> B -> Prop) l r1 x r2 : Forall2 P l (r1 ++ x :: r2) -> exists l1 y l2, l = l1 ++ y :: l2 /\ Forall2 P l1 r1 /\ P y x /\ Forall2 P l2 r2.
Proof. intros H. apply Forall2_app_inv_r in H. destruct H as (l1 & l2 & H1 & H2 & ->). inversion H2; subst. eauto 7. Qed.
Lemma Forall2_split_l {A B} (P : A -> B -> Prop) l1 y l2 r : Forall2 P (l1 ++ y :: l2) r -> exists r1 x r2, r = r1 ++ x :: r2 /\ Forall2 P l1 r1 /\ P y x /\ Forall2 P l2 r2.
Proof. intros H. apply Forall2_app_inv_l in H. destruct H as (r1 & r2 & H1 & H2 & ->). inversion H2; subst. eauto 7. Qed.
Lemma map_split {A B} (f : A -> B) l b x a : map f l = b ++ x :: a -> exists lb y la, l = lb ++ y :: la /\ map f lb = b /\ f y = x /\ map f la = a.
Proof.
  revert l. induction b as [|z b IH]; intros [|y l] E; try discriminate E; cbn in E; injection E as E0 E.
  - exists [], y, l. repeat split; assumption.
  - destruct (IH l E) as (lb & y' & la & -> & E1 & E2 & E3). exists (y :: lb), y', la. cbn. rewrite E0, E1. repeat split; assumption.
Qed.

Section Net.
  Variable m : source.
  Variables input output : string.
  Variable impl : conv_impl.
  Variable inputs : string -> list R.
  Variable env : string -> option tensor.
  Hypothesis WF : well_formed m input output.
  Hypothesis RU : runs m inputs env.
  Hypothesis AN : annotated m env.
  Hypothesis CV : all_covered m.
  Hypothesis EX : OnnxModelSpec.exclusive m.

  Lemma names_split : NoDup (map fst (s_init m)) /\ NoDup (input :: map n_output (s_nodes m)) /\
    (forall nm, produced m nm -> ~ In nm (map fst (s_init m))) /\ (forall nm, produced m nm \/ In nm (map fst (s_init m)) -> nm <> ""%string).
  Proof.
    pose proof (wf_names _ _ _ WF) as ND. pose proof (wf_named _ _ _ WF) as NE. unfold defined_names in *. rewrite (wf_input _ _ _ WF) in *. cbn [Datatypes.app] in *.
    inversion ND as [|? ? NI ND']; subst. split; [exact (NoDup_app_l _ _ ND')|]. split; [|split].
    - constructor; [intros H; apply NI; apply in_or_app; right; exact H|exact (NoDup_app_r _ _ ND')].
    - intros nm [P|P] H; [rewrite (wf_input _ _ _ WF) in P; destruct P as [<-|[]]; apply NI; apply in_or_app; left; exact H|]. exact (NoDup_app_disj _ _ nm ND' H P).
    - intros nm H ->. apply NE. unfold produced in H. rewrite (wf_input _ _ _ WF) in H. cbn [In] in H |- *. rewrite in_app_iff. tauto.
  Qed.
  Lemma facts : run_facts m env.
  Proof.
    destruct names_split as (NI & NO & PI & NE). destruct RU as (_ & _ & RI & _ & RS). constructor.
    - intros nm P. destruct (an_all _ _ AN _ P) as (ds & A). pose proof (raw_announced _ _ _ A) as AR. pose proof (an_true _ _ AN _ _ AR) as (x & E).
      assert (ED : data env nm = x) by (unfold data; rewrite E; reflexivity). constructor.
      + unfold initialiser. destruct (String.eqb_spec nm ""); [reflexivity|]. apply find_first_none. exact (PI _ P).
      + exact AR.
      + exact (an_sample _ _ AN _ _ P AR).
      + rewrite ED. exact E.
      + rewrite ED. exact (proj2 (RS _ _ E)).
    - intros nm t S. split; [|exact (RI _ _ S)]. unfold initialiser. destruct (String.eqb_spec nm "") as [->|]; [|apply find_first_in; assumption].
      destruct (NE ""%string (or_intror (in_map fst _ _ S)) eq_refl).
    - exact RS.
  Qed.
  Lemma output_produced nd : In nd (s_nodes m) -> produced m (n_output nd).
  Proof. intros H. right. apply in_map. exact H. Qed.
  Lemma nodes_imported : exists nds, all_some (map (import_node impl m) (s_nodes m)) = Some nds /\ Forall2 (node_ok m env impl) (s_nodes m) nds.
  Proof.
    assert (G : forall nd, In nd (s_nodes m) -> exists r, import_node impl m nd = Some r /\ node_ok m env impl nd r).
    { intros nd Hn. destruct (CV nd Hn) as (C & RD). pose proof (output_produced nd Hn) as Po. destruct RU as (E0 & _ & _ & RN & _). destruct (RN nd Hn) as (out & EO & HO).
      rewrite (cp_env _ _ _ (rf_produced _ _ facts _ Po)) in EO. injection EO as <-. exact (covered_node m env facts E0 impl nd C RD Po HO). }
    revert G. generalize (s_nodes m) as l. induction l as [|nd l IH]; intros G; [exists []; split; [reflexivity|constructor]|].
    destruct (G nd (or_introl eq_refl)) as (r & E & OK). destruct (IH (fun n H => G n (or_intror H))) as (rs & ES & OKS). exists (r :: rs). cbn [map all_some]. rewrite E. cbn [bind]. rewrite ES. split; [reflexivity|constructor; assumption].
  Qed.

  Section Made.
    Variable nds : list (onnx_node * option (layer Rnum)).
    Hypothesis HN : Forall2 (node_ok m env impl) (s_nodes m) nds.
    Let M := mkOnnx [input] (map fst (s_init m)) (map fst nds).
    Lemma outputs_ok l r : Forall2 (node_ok m env impl) l r -> flat_map node_outputs (map fst r) = map n_output l.
    Proof. induction 1 as [|nd x l r OK _ IH]; [reflexivity|]. cbn [map flat_map]. rewrite IH. inversion OK; subst; reflexivity. Qed.
    Lemma node_split b on a : o_nodes M = b ++ on :: a -> exists b1 nd a1 nb oL na, s_nodes m = b1 ++ nd :: a1 /\ nds = nb ++ (on, oL) :: na /\ map fst nb = b /\ map fst na = a /\
      node_ok m env impl nd (on, oL) /\ Forall2 (node_ok m env impl) b1 nb /\ Forall2 (node_ok m env impl) a1 na.
    Proof.
      unfold M. cbn [o_nodes]. intros E. apply map_split in E. destruct E as (nb & (on' & oL) & na & E & E1 & E2 & E3). cbn [fst] in E2. subst on'. rewrite E in HN. apply Forall2_split_r in HN. destruct HN as (b1 & nd & a1 & ES & H1 & OK & H2).
      exists b1, nd, a1, nb, oL, na. auto 10.
    Qed.
    Lemma split_node b1 nd a1 : s_nodes m = b1 ++ nd :: a1 -> exists nb r na, nds = nb ++ r :: na /\ o_nodes M = map fst nb ++ fst r :: map fst na /\ node_ok m env impl nd r /\
      Forall2 (node_ok m env impl) b1 nb /\ Forall2 (node_ok m env impl) a1 na.
    Proof.
      intros E. rewrite E in HN. apply Forall2_split_l in HN. destruct HN as (nb & r & na & ES & H1 & OK & H2). exists nb, r, na. split; [exact ES|]. split; [unfold M; cbn [o_nodes]; rewrite ES, map_app; reflexivity|]. auto.
    Qed.
    Lemma reads_incl nd r : node_ok m env impl nd r -> incl (node_inputs (fst r)) (n_inputs nd).
    Proof. intros OK. inversion OK; subst; cbn [fst node_inputs]; [|assumption]. match goal with E : n_inputs nd = _ |- _ => rewrite E end. intros x [<-|[]]. left. reflexivity. Qed.
    Lemma Forall2_in_r {A B} (P : A -> B -> Prop) l r y : Forall2 P l r -> In y r -> exists x, In x l /\ P x y.
    Proof. induction 1 as [|a b l r OK _ IH]; [intros []|]. intros [<-|H]; [exists a; split; [left; reflexivity|exact OK]|]. destruct (IH H) as (x & Hx & Px). exists x. split; [right; exact Hx|exact Px]. Qed.
    Lemma Forall2_in_l {A B} (P : A -> B -> Prop) l r x : Forall2 P l r -> In x l -> exists y, In y r /\ P x y.
    Proof. induction 1 as [|a b l r OK _ IH]; [intros []|]. intros [<-|H]; [exists b; split; [left; reflexivity|exact OK]|]. destruct (IH H) as (y & Hy & Py). exists y. split; [right; exact Hy|exact Py]. Qed.
    Lemma read_known nd r nm : node_ok m env impl nd r -> In nm (node_inputs (fst r)) -> produced m nm \/ (exists ds x, stored m nm (TFloat ds x)) /\ match fst r with OBypass _ _ => False | _ => True end.
    Proof.
      intros OK H. inversion OK; subst; cbn [fst node_inputs] in *; [destruct H as [<-|[]]; left; assumption|]. match goal with G : forall nm, In nm rec -> produced m nm \/ _ |- _ => destruct (G _ H) as [P|S] end; [left; exact P|right; split; [exact S|exact I]].
    Qed.
    Lemma importable_M : importable M.
    Proof.
      destruct names_split as (NI & NO & PI & NE). constructor.
      - unfold M. cbn [o_inputs o_nodes]. rewrite (outputs_ok _ _ HN). exact NO.
      - intros on H. unfold M in H. cbn [o_nodes] in H. apply in_map_iff in H. destruct H as (r & <- & Hr). destruct (Forall2_in_r _ _ _ _ HN Hr) as (nd & _ & OK). inversion OK; exact I.
      - intros b on a nm E Hnm. destruct (node_split _ _ _ E) as (b1 & nd & a1 & nb & oL & na & ES & END & <- & <- & OK & OKB & OKA). pose proof (read_known _ _ _ OK Hnm) as KN. pose proof (reads_incl _ _ OK _ Hnm) as RD. cbn [fst] in *.
        destruct (wf_order _ _ _ WF _ _ _ ES _ RD) as [->|[->|[HI|HB]]].
        + exfalso. destruct KN as [P|((ds & x & S) & _)]; [exact (NE _ (or_introl P) eq_refl)|exact (NE _ (or_intror (in_map fst _ _ S)) eq_refl)].
        + left. left. reflexivity.
        + destruct KN as [P|(_ & K)]; [destruct (PI _ P HI)|]. right. right. split; [exact HI|]. split; [|exact K]. unfold M. cbn [o_nodes]. rewrite (outputs_ok _ _ HN). intros H. exact (PI nm (or_intror H) HI).
        + right. left. apply in_map_iff in HB. destruct HB as (p & <- & Hp). destruct (Forall2_in_l _ _ _ _ OKB Hp) as (r & Hr & OKR). exists (fst r). split; [apply in_map; exact Hr|]. inversion OKR; subst; cbn [fst node_outputs]; (split; [left; reflexivity|exact I]).
      - intros b i o a on E Hon HI. destruct (node_split _ _ _ E) as (b1 & nd & a1 & nb & oL & na & ES & END & <- & <- & OK & OKB & OKA). inversion OK as [i' rest OP EI Pi NR ED|]; subst.
        rewrite <- map_app in Hon. apply in_map_iff in Hon. destruct Hon as (r & <- & Hr). destruct (Forall2_in_r _ _ _ r (Forall2_app OKB OKA) Hr) as (nd' & Hn' & OK'). apply (EX b1 nd a1 i rest ES OP EI nd' Hn'). exact (reads_incl _ _ OK' _ HI).
    Qed.
    Lemma made_at nb L x na : nds = nb ++ (x, Some L) :: na -> forall d, nth (layers_in (map fst nb)) (made_layers nds) d = L.
    Proof.
      intros E d. assert (OK : Forall (fun r => makes_layer (fst r) = match snd r with Some _ => true | None => false end) nds).
      { apply Forall_forall. intros r Hr. destruct (Forall2_in_r _ _ _ _ HN Hr) as (nd & _ & OK). inversion OK; reflexivity. }
      rewrite E in *. clear -OK. induction nb as [|(y, oy) nb IH]; [reflexivity|]. cbn [Datatypes.app map fst] in *. inversion OK as [|? ? O1 O2]; subst. cbn [fst snd] in O1. unfold layers_in. cbn [filter]. rewrite O1.
      destruct oy as [Ly|]; cbn [made_layers length nth]; apply IH; exact O2.
    Qed.
    Lemma bypass_same a b : ImportChains.step M a b -> data env b = data env a.
    Proof.
      intros S. unfold ImportChains.step, M in S. cbn [o_nodes] in S. apply in_map_iff in S. destruct S as ((on, oL) & EO & Hr). cbn [fst] in EO. subst on. destruct (Forall2_in_r _ _ _ _ HN Hr) as (nd & _ & OK). inversion OK; subst. assumption.
    Qed.
    Lemma held_produced nm k : output_of_layer M nm k -> produced m nm.
    Proof.
      assert (G : forall b on a nm, o_nodes M = b ++ on :: a -> In nm (node_outputs on) -> produced m nm).
      { intros b on a n E H. right. rewrite <- (outputs_ok _ _ HN). apply in_flat_map. exists on. split; [change (map fst nds) with (o_nodes M); rewrite E; apply in_elt|exact H]. }
      induction 1 as [b n a E|b ins n a E|b i n a k E H _]; [|eapply G; [exact E|left; reflexivity]|eapply G; [exact E|left; reflexivity]].
      left. rewrite (wf_input _ _ _ WF). unfold M in E. cbn [o_inputs] in E. rewrite E. apply in_elt.
    Qed.

    Variable g : graph.
    Variable cs : list (nat * string).
    Hypothesis EL : load_onnx M = Some (g, cs).
    Let n0 := S (layers_in (map fst nds)).
    Let md := mkModel Rnum g (layer_at m (made_layers nds) cs) false.

    Lemma load_facts : linked g /\ acyclic g /\ constants_are_sources g /\
      (forall before ins out after, o_nodes M = before ++ OLayer ins out :: after -> Forall2 (held_by M cs) ins (previous_layer g (S (layers_in before)))) /\
      previous_layer g 0%nat = [] /\ dnn g = seq 0 (n0 + length cs) /\ map fst cs = seq n0 (length cs) /\ (forall c nm, In (c, nm) cs -> In nm (map fst (s_init m))) /\
      (forall c nm, In (c, nm) cs -> next_layer g c <> []) /\ (forall c, is_constant g c = true <-> exists nm, In (c, nm) cs).
    Proof.
      destruct (C46_onnx_inputs M importable_M) as (g' & cs' & E & H1 & H2 & H3 & H4 & H5 & H6). rewrite EL in E. injection E as <- <-. destruct (load_constants _ _ _ EL) as (K1 & K2 & K3 & K4). destruct (C46_onnx_linked _ _ _ EL) as (_ & _ & _ & K5).
      split; [exact H1|]. split; [exact H2|]. split; [exact H3|]. split; [exact H4|]. split; [apply H5; cbn; lia|]. split; [exact K1|]. split; [exact K2|]. split; [exact K3|]. split; [exact K4|exact K5].
    Qed.
    Lemma in_g k : In k (dnn g) <-> (k < n0 + length cs)%nat.
    Proof. destruct load_facts as (_ & _ & _ & _ & _ & D & _). rewrite D, in_seq. lia. Qed.
    Lemma constant_index k nm : In (k, nm) cs -> (n0 <= k)%nat.
    Proof. destruct load_facts as (_ & _ & _ & _ & _ & _ & D & _). intros H. apply (in_map fst) in H. rewrite D in H. apply in_seq in H. cbn [fst] in H. lia. Qed.
    Lemma constant_at k : (n0 <= k < n0 + length cs)%nat -> exists nm, In (k, nm) cs.
    Proof.
      destruct load_facts as (_ & _ & _ & _ & _ & _ & D & _). intros H. assert (I : In k (map fst cs)) by (rewrite D; apply in_seq; lia). apply in_map_iff in I. destruct I as ((k', nm) & E & I). cbn [fst] in E. subst k'. exists nm. exact I.
    Qed.
    Lemma constant_layer_at k nm : In (k, nm) cs -> layer_at m (made_layers nds) cs k = constant_layer m nm.
    Proof.
      intros H. destruct load_facts as (_ & _ & _ & _ & _ & _ & D & _). unfold layer_at. assert (ND : NoDup (map fst cs)) by (rewrite D; apply seq_NoDup). destruct (find (fun e => Nat.eqb k (fst e)) cs) as [e|] eqn:E.
      - apply find_some in E. destruct E as (He & EK). apply Nat.eqb_eq in EK. destruct e as (k', nm'). cbn [fst snd] in *. subst k'. f_equal. clear -ND H He. induction cs as [|(c, n) l IH]; [destruct H|]. cbn [map fst] in ND. inversion ND as [|? ? NI ND']; subst.
        destruct H as [H|H], He as [He|He]; [congruence| | |exact (IH H ND' He)]; exfalso; apply NI; [injection H as -> ->; apply (in_map fst) in He; exact He|injection He as -> ->; apply (in_map fst) in H; exact H].
      - exfalso. pose proof (find_none _ _ E _ H) as K. cbn [fst] in K. rewrite Nat.eqb_refl in K. discriminate.
    Qed.
    Lemma not_constant_at k : (k < n0)%nat -> is_constant g k = false /\ forall d, layer_at m (made_layers nds) cs k = nth k (map (fun i => input_layer (snd i)) (s_inputs m) ++ made_layers nds) d \/ layer_at m (made_layers nds) cs k = nth k (map (fun i => input_layer (snd i)) (s_inputs m) ++ made_layers nds) (plain (KInput Rnum 0)).
    Proof.
      intros H. destruct load_facts as (_ & _ & _ & _ & _ & _ & _ & _ & _ & KC). split.
      - destruct (is_constant g k) eqn:E; [|reflexivity]. apply KC in E. destruct E as (nm & E). apply constant_index in E. lia.
      - intros d. right. unfold layer_at. destruct (find (fun e => Nat.eqb k (fst e)) cs) as [e|] eqn:E; [|reflexivity]. apply find_some in E. destruct E as (He & EK). apply Nat.eqb_eq in EK. destruct e as (k', nm'). cbn [fst] in EK. subst k'. apply constant_index in He. lia.
    Qed.
    Lemma input_dims : exists ids, s_inputs m = [(input, ids)].
    Proof. pose proof (wf_input _ _ _ WF) as E. destruct (s_inputs m) as [|(n, ids) [|x r]]; try discriminate E. cbn in E. injection E as ->. exists ids. reflexivity. Qed.
    Lemma layer_zero : exists ids, s_inputs m = [(input, ids)] /\ layer_at m (made_layers nds) cs 0%nat = input_layer ids.
    Proof.
      destruct input_dims as (ids & E). exists ids. split; [exact E|]. destruct (not_constant_at 0%nat ltac:(unfold n0; lia)) as (_ & K). destruct (K (plain (KInput Rnum 0))) as [-> | ->]; rewrite E; reflexivity.
    Qed.
    Lemma layer_split b ins o a : o_nodes M = b ++ OLayer ins o :: a -> exists b1 nd a1, s_nodes m = b1 ++ nd :: a1 /\
      node_ok m env impl nd (OLayer ins o, Some (layer_at m (made_layers nds) cs (S (layers_in b)))) /\ (S (layers_in b) < n0)%nat.
    Proof.
      intros E. destruct (node_split _ _ _ E) as (b1 & nd & a1 & nb & oL & na & ES & END & EB & _ & OK & _ & _). exists b1, nd, a1. split; [exact ES|].
      assert (LT : (S (layers_in b) < n0)%nat).
      { unfold n0. change (map fst nds) with (o_nodes M). rewrite E, layers_in_app. change (OLayer ins o :: a) with ([OLayer ins o] ++ a). rewrite layers_in_app. cbn. lia. }
      split; [|exact LT]. destruct oL as [L|]; [|inversion OK]. destruct (not_constant_at _ LT) as (_ & K). destruct input_dims as (ids & EI).
      assert (EQ : layer_at m (made_layers nds) cs (S (layers_in b)) = L).
      { destruct (K (plain (KInput Rnum 0))) as [-> | ->]; rewrite EI; cbn [map Datatypes.app nth]; rewrite <- EB; eapply made_at; exact END. }
      rewrite EQ. exact OK.
    Qed.
    Lemma layer_cases k : In k (dnn g) -> k = 0%nat \/ (exists b ins o a, o_nodes M = b ++ OLayer ins o :: a /\ k = S (layers_in b)) \/ exists nm, In (k, nm) cs.
    Proof.
      intros H. apply in_g in H. destruct k as [|k]; [left; reflexivity|right]. destruct (Nat.lt_ge_cases k (layers_in (map fst nds))) as [L|L].
      - left. destruct (layer_origin M importable_M k L) as (b & ins & o & a & E & EK). exists b, ins, o, a. split; [exact E|]. f_equal. symmetry. exact EK.
      - right. apply constant_at. unfold n0 in *. lia.
    Qed.
    Lemma constant_value k nm : In (k, nm) cs -> exists w, lkind Rnum (layer_at m (made_layers nds) cs k) = KConstant Rnum w.
    Proof. intros H. rewrite (constant_layer_at _ _ H). eexists. reflexivity. Qed.
    Lemma held_before b ins o a p : o_nodes M = b ++ OLayer ins o :: a -> In p (previous_layer g (S (layers_in b))) -> exists nm, In nm ins /\ held_by M cs nm p.
    Proof.
      intros E H. destruct load_facts as (_ & _ & _ & F2 & _). specialize (F2 _ _ _ _ E). clear -F2 H. induction F2 as [|x y l r K _ IH]; [destruct H|]. destruct H as [<-|H]; [exists x; split; [left; reflexivity|exact K]|].
      destruct (IH H) as (nm & Hn & HK). exists nm. split; [right; exact Hn|exact HK].
    Qed.
    Lemma held_before' b ins o a nm : o_nodes M = b ++ OLayer ins o :: a -> In nm ins -> exists p, In p (previous_layer g (S (layers_in b))) /\ held_by M cs nm p.
    Proof.
      intros E H. destruct load_facts as (_ & _ & _ & F2 & _). specialize (F2 _ _ _ _ E). clear -F2 H. induction F2 as [|x y l r K _ IH]; [destruct H|]. destruct H as [<-|H]; [exists y; split; [left; reflexivity|exact K]|].
      destruct (IH H) as (p & Hn & HK). exists p. split; [right; exact Hn|exact HK].
    Qed.
    Lemma held_plain nm k : output_of_layer M nm k -> is_constant g k = false.
    Proof. intros H. apply below in H. apply not_constant_at. unfold n0. unfold M in H; cbn [o_inputs o_nodes length] in H; lia. Qed.
    Lemma held_of_produced nm k : produced m nm -> held_by M cs nm k -> output_of_layer M nm k.
    Proof. intros P [H|(H & _)]; [exact H|]. destruct names_split as (_ & _ & PI & _). destruct (PI _ P H). Qed.
    (** Every layer but the input reads a computed tensor. *)
    Lemma reads_layer b ins o a : o_nodes M = b ++ OLayer ins o :: a -> exists p, In p (previous_layer g (S (layers_in b))) /\ is_constant g p = false.
    Proof.
      intros E. destruct (layer_split _ _ _ _ E) as (b1 & nd & a1 & _ & OK & _). inversion OK; subst. match goal with H : exists nm, In nm ins /\ produced m nm |- _ => destruct H as (nm & Hn & P) end.
      destruct (held_before' _ _ _ _ _ E Hn) as (p & Hp & HK). exists p. split; [exact Hp|]. eapply held_plain. eapply held_of_produced; eassumption.
    Qed.
    Lemma single : single_input g 0%nat.
    Proof.
      destruct load_facts as (_ & _ & _ & _ & P0 & D & _ & _ & _ & KC). split; [rewrite D; reflexivity|]. split; [apply not_constant_at; unfold n0; lia|]. split; [exact P0|]. intros s Hs NZ NC.
      destruct (layer_cases s Hs) as [->|[(b & ins & o & a & E & ->)|(nm & H)]]; [congruence|eapply reads_layer; exact E|]. assert (X : is_constant g s = true) by (apply KC; eauto). congruence.
    Qed.
    (** A layer that nobody reads holds the output. *)
    Lemma unread_output k : In k (dnn g) -> (forall s, In s (dnn g) -> ~ In k (previous_layer g s)) -> output_of_layer M output k.
    Proof.
      intros Hk NR. destruct load_facts as (LG & _ & _ & _ & _ & _ & _ & _ & NX & _).
      assert (X : exists nm, output_of_layer M nm k).
      { destruct (layer_cases k Hk) as [->|[(b & ins & o & a & E & ->)|(nm & H)]].
        - exists input. apply (from_input M [] input []). reflexivity.
        - exists o. apply (from_node M b ins o a E).
        - exfalso. pose proof (NX _ _ H) as NE. destruct (next_layer g k) as [|s r] eqn:EN; [congruence|]. assert (Hs : In s (next_layer g k)) by (rewrite EN; left; reflexivity).
          assert (IS : In s (dnn g)) by (eapply (links_closed _ LG); [exact Hk|left; exact Hs]). apply (NR s IS). apply (count_occ_In Nat.eq_dec). rewrite <- (links_symmetric _ LG k s Hk IS). apply (count_occ_In Nat.eq_dec). exact Hs. }
      destruct X as (nm & HO). destruct (tip_exists M importable_M nm k HO) as (t & HT & NS). destruct (string_dec t output) as [->|NO]; [exact HT|exfalso].
      pose proof (held_produced _ _ HT) as P. destruct (wf_used _ _ _ WF t ltac:(unfold produced in P; rewrite (wf_input _ _ _ WF) in P; destruct P as [[<-|[]]|P]; auto) NO) as (nd & Hn & Hr).
      destruct (in_split _ _ Hn) as (b1 & a1 & ES). destruct (split_node _ _ _ ES) as (nb & r & na & END & EM & OK & _ & _). inversion OK as [i rest OP EI Pi NP ED|rec L H1 H2 H3 H4 H5 H6 H7 H8 H9]; subst r; cbn [fst] in EM.
      - rewrite EI in Hr. destruct Hr as [<-|Hr]; [|exact (NP _ Hr P)]. apply (NS (n_output nd)). unfold ImportChains.step. rewrite EM. apply in_elt.
      - destruct (held_before' _ _ _ _ _ EM (H2 _ Hr P)) as (p & Hp & HK). pose proof (held_of_produced _ _ P HK) as HK'. rewrite (C46_onnx_layer_is_unique M importable_M _ _ _ HK' HT) in Hp.
        refine (NR _ _ Hp). apply in_g. destruct (layer_split _ _ _ _ EM) as (_ & _ & _ & _ & _ & LT). lia.
    Qed.
    Lemma scheduled : exists s, tri_topo g = Some s /\ Permutation (dnn g) (order s) /\ output_of_layer M output (last (order s) 0%nat).
    Proof.
      destruct load_facts as (LG & AC & CS & _ & _ & D & _ & _ & _ & KC). pose proof single as (_ & C0 & P0 & SI).
      assert (I0 : In 0%nat (dnn g)) by (apply in_g; unfold n0; lia).
      destruct (C01_layers_after_their_producers g LG AC CS) as (s & ES & PM & T).
      - intros k Hk NE. destruct (layer_cases k Hk) as [->|[(b & ins & o & a & E & ->)|(nm & H)]]; [congruence|eapply reads_layer; exact E|]. destruct NE. apply CS; [exact Hk|]. apply KC. eauto.
      - exists 0%nat. split; assumption.
      - exists s. split; [exact ES|]. split; [exact PM|]. assert (ND : NoDup (order s)) by (eapply Permutation_NoDup; [exact PM|apply LG]).
        assert (NN : order s <> []) by (intros E; apply (Permutation_in _ PM) in I0; rewrite E in I0; destruct I0). pose proof (app_removelast_last 0%nat NN) as EQ. remember (last (order s) 0%nat) as z eqn:EZ.
        apply unread_output.
        + eapply Permutation_in; [apply Permutation_sym; exact PM|]. rewrite EQ. apply in_or_app. right. left. reflexivity.
        + intros k Hk Hr. apply (Permutation_in _ PM) in Hk. destruct (in_split _ _ Hk) as (l1 & l2 & EO). pose proof (T l1 k l2 EO z Hr) as H1.
          assert (Hzl : In z (k :: l2)).
          { rewrite EO in EZ. rewrite EZ. clear. induction l1 as [|x l1 IH]; [|cbn [Datatypes.app]; destruct (l1 ++ k :: l2) eqn:E; [destruct l1; discriminate|exact IH]].
            cbn [Datatypes.app]. generalize k. induction l2 as [|y l2 IH]; intros k'; [left; reflexivity|]. right. exact (IH y). }
          rewrite EO in ND. clear - ND H1 Hzl. induction l1 as [|x l1 IH]; [destruct H1|]. cbn [Datatypes.app] in ND. inversion ND as [|? ? NI ND']; subst.
          destruct H1 as [-> |H1]; [apply NI; apply in_or_app; right; exact Hzl|exact (IH ND' H1)].
    Qed.

    (** ** Values. *)
    Definition known (nm : string) : Prop := produced m nm \/ exists ds x, stored m nm (TFloat ds x).
    Lemma constant_data nm : In nm (map fst (s_init m)) -> known nm -> lkind Rnum (constant_layer m nm) = KConstant Rnum (data env nm).
    Proof.
      intros HI [P|(ds & x & S)]; [destruct names_split as (_ & _ & PI & _); destruct (PI _ P HI)|]. destruct (rf_stored _ _ facts _ _ S) as (EI & EE). unfold constant_layer, floats, data. rewrite EI, EE. reflexivity.
    Qed.
    Lemma data_same nm nm' k : output_of_layer M nm k -> output_of_layer M nm' k -> data env nm = data env nm'.
    Proof. apply (same_layer_same M importable_M (data env) bypass_same). Qed.
    Lemma input_data : data env input = inputs input.
    Proof. destruct input_dims as (ids & E). destruct RU as (_ & RI & _). unfold data. rewrite (RI input ids); [reflexivity|]. rewrite E. left. reflexivity. Qed.
    Lemma held_values ninf q s val : evaluates (documented_net Rnum ninf q md s) (inputs input) val -> forall k nm, In k (dnn g) -> held_by M cs nm k -> known nm -> val k = data env nm.
    Proof.
      intros EV. destruct load_facts as (LG & (rank & AC) & CS & F2 & P0 & D & KK & KN & NX & KC).
      assert (G : forall r k nm, (rank k < r)%nat -> In k (dnn g) -> held_by M cs nm k -> known nm -> val k = data env nm); [|intros k nm; apply (G (S (rank k))); lia].
      induction r as [|r IH]; [lia|]. intros k nm LT Hk HH KW.
      assert (PRE : forall x, md_pre Rnum md s x = x). { intros x. unfold md_pre. destruct (lk Rnum md (hd 0%nat (order s))); reflexivity. }
      pose proof (EV k Hk) as EK. unfold documented_net, net_with in EK. cbn [net_graph forward pre] in EK. rewrite PRE in EK. unfold md in EK. cbn [md_graph md_layer] in EK.
      destruct (layer_cases k Hk) as [->|[(b & ins & o & a & E & ->)|(c & HC)]].
      - rewrite P0 in EK. destruct layer_zero as (ids & _ & EL0). rewrite EL0 in EK.
        assert (V0 : val 0%nat = inputs input) by (rewrite EK; unfold input_layer; destruct ids as [|? [|? [|? [|? [|? ?]]]]]; reflexivity).
        rewrite V0, <- input_data. destruct HH as [HO|(_ & HC)]; [|apply constant_index in HC; unfold n0 in HC; lia].
        eapply data_same; [|exact HO]. apply (from_input M [] input []). reflexivity.
      - destruct (layer_split _ _ _ _ E) as (b1 & nd & a1 & ES & OK & LT'). inversion OK as [|rec L H1 H2 H3 H4 H5 H6 H7 H8 H9]; subst.
        destruct HH as [HO|(_ & HC)]; [|apply constant_index in HC; lia].
        rewrite (data_same nm (n_output nd) _ HO ltac:(apply (from_node M b ins (n_output nd) a E))). rewrite <- (H8 ninf q), EK. f_equal.
        assert (EM : map val (previous_layer g (S (layers_in b))) = map (data env) ins).
        { assert (G2 : forall p n, In p (previous_layer g (S (layers_in b))) -> In n ins -> held_by M cs n p -> val p = data env n).
          { intros p n Hp Hn HP. assert (Ip : In p (dnn g)) by (eapply (links_closed _ LG); [exact Hk|right; exact Hp]). apply IH; [|exact Ip|exact HP|exact (H3 _ Hn)].
            assert (IN : In (S (layers_in b)) (next_layer g p)) by (apply (count_occ_In Nat.eq_dec); rewrite (links_symmetric _ LG p _ Ip Hk); apply (count_occ_In Nat.eq_dec); exact Hp). pose proof (AC _ _ Ip IN). lia. }
          pose proof (F2 _ _ _ _ E) as FF. clear -G2 FF. induction FF as [|n p l r K _ IH]; [reflexivity|]. cbn [map]. f_equal; [apply G2; [left; reflexivity|left; reflexivity|exact K]|]. apply IH. intros p' n' Hp Hn. apply G2; right; assumption. }
        rewrite <- EM. destruct (previous_layer g (S (layers_in b))) eqn:EP; [|reflexivity]. exfalso. destruct (reads_layer _ _ _ _ E) as (p & Hp & _). rewrite EP in Hp. destruct Hp.
      - destruct HH as [HO|(HI & HC')]; [apply below in HO; apply constant_index in HC; unfold n0 in HC; unfold M in HO; cbn [o_inputs o_nodes length] in HO; lia|]. rewrite (constant_layer_at _ _ HC') in EK. rewrite EK. unfold meaning, meaning_with. rewrite (constant_data nm HI KW). reflexivity.
    Qed.
    Lemma output_value ninf q s val : output_of_layer M output (last (order s) 0%nat) -> In (last (order s) 0%nat) (dnn g) ->
      evaluates (documented_net Rnum ninf q md s) (inputs input) val -> md_post Rnum md s (val (last (order s) 0%nat)) = data env output.
    Proof.
      intros HO Hk EV. rewrite (held_values ninf q s val EV _ output Hk (or_introl HO)); [|left; exact (held_produced _ _ HO)]. unfold md_post. destruct (out_channels Rnum (lk Rnum md (last (order s) 0%nat))) as [((C & H) & W)|]; reflexivity.
    Qed.

    (** ** The generated program (C08). *)
    Lemma constant_unique k nm nm' : In (k, nm) cs -> In (k, nm') cs -> nm = nm'.
    Proof.
      intros H He. destruct load_facts as (_ & _ & _ & _ & _ & _ & D & _). assert (ND : NoDup (map fst cs)) by (rewrite D; apply seq_NoDup). clear -ND H He. induction cs as [|(c, n) l IH]; [destruct H|]. cbn [map fst] in ND. inversion ND as [|? ? NI ND']; subst.
      destruct H as [H|H], He as [He|He]; [congruence| | |exact (IH H He ND')]; exfalso; apply NI; [injection H as -> ->; apply (in_map fst) in He; exact He|injection He as -> ->; apply (in_map fst) in H; exact H].
    Qed.
    Lemma Forall2_NoDup {A B} (P : A -> B -> Prop) l r : Forall2 P l r -> (forall x x' y, In x l -> In x' l -> P x y -> P x' y -> x = x') -> NoDup l -> NoDup r.
    Proof.
      induction 1 as [|x y l r K F IH]; intros INJ ND; [constructor|]. inversion ND as [|? ? NI ND']; subst. constructor; [|apply IH; [|exact ND']; intros; eapply INJ; [right|right| |]; eassumption].
      intros HY. destruct (Forall2_in_r _ _ _ _ F HY) as (x' & Hx' & K'). apply NI. rewrite (INJ x x' y (or_introl eq_refl) (or_intror Hx') K K'). exact Hx'.
    Qed.
    Lemma no_repeat : reads_once m -> no_repeated_input g.
    Proof.
      intros RO k Hk. destruct load_facts as (LG & AC & CS & F2 & P0 & D & KK & KN & NX & KC). destruct (layer_cases k Hk) as [->|[(b & ins & o & a & E & ->)|(c & HC)]].
      - rewrite P0. constructor.
      - destruct (layer_split _ _ _ _ E) as (b1 & nd & a1 & ES & OK & LT'). inversion OK as [|rec L H1 H2 H3 H4 H5 H6 H7 H8 H9]; subst.
        eapply (Forall2_NoDup (held_by M cs)); [exact (F2 _ _ _ _ E)| |apply H5; apply RO; rewrite ES; apply in_elt]. intros x x' y Hx Hx' K K'.
        assert (NS : forall n, In n ins -> forall c, ~ ImportChains.step M n c).
        { intros n Hn c S. destruct (in_split _ _ S) as (b2 & a2 & E2). apply (im_identity M importable_M _ _ _ _ (OLayer ins (n_output nd)) E2); [|exact Hn].
          assert (I : In (OLayer ins (n_output nd)) (o_nodes M)) by (rewrite E; apply in_elt). rewrite E2 in I. apply in_app_iff in I. destruct I as [I|[I|I]]; [|discriminate|]; apply in_or_app; auto. }
        destruct K as [K|(_ & K)], K' as [K'|(_ & K')].
        + exact (same_layer_equal M importable_M _ _ _ K K' (NS _ Hx) (NS _ Hx')).
        + apply below in K. apply constant_index in K'. unfold M, n0 in *; cbn [o_inputs o_nodes length] in *; lia.
        + apply below in K'. apply constant_index in K. unfold M, n0 in *; cbn [o_inputs o_nodes length] in *; lia.
        + exact (constant_unique _ _ _ K K').
      - rewrite CS; [constructor|exact Hk|]. apply KC. eauto.
    Qed.
    Lemma find_size_run ds : Forall (fun n => 0 <= n) ds -> find_size ds = prod (run_dims ds).
    Proof.
      intros _. unfold find_size. assert (G : forall acc, fold_left (fun s i => if i =? 0 then s else s * i) ds acc = acc * prod (run_dims ds)); [|rewrite G; lia].
      induction ds as [|n ds IH]; intros acc; cbn [fold_left run_dims map prod fold_right]; [lia|]. rewrite IH. change (map (fun n => if n =? 0 then 1 else n) ds) with (run_dims ds). destruct (n =? 0); cbn [prod]; lia.
    Qed.
    Lemma sizes k nm : In k (dnn g) -> held_by M cs nm k -> known nm -> md_size Rnum md k = zlen (data env nm).
    Proof.
      intros Hk HH KW. unfold md_size, lk, md. cbn [md_layer]. destruct load_facts as (LG & AC & CS & F2 & P0 & D & KK & KN & NX & KC). destruct (layer_cases k Hk) as [->|[(b & ins & o & a & E & ->)|(c & HC)]].
      - destruct layer_zero as (ids & EI & EL0). rewrite EL0. destruct HH as [HO|(_ & HC)]; [|apply constant_index in HC; unfold n0 in HC; lia].
        rewrite (data_same nm input 0%nat HO ltac:(apply (from_input M [] input []); reflexivity)).
        assert (P : produced m input) by (left; rewrite EI; left; reflexivity). assert (A : announced m input ids) by (unfold announced; rewrite EI; left; reflexivity).
        pose proof (an_sample _ _ AN _ _ P A) as (L4 & NN & B1). destruct (an_true _ _ AN _ _ A) as (x & EE). destruct RU as (_ & _ & _ & _ & RS). pose proof (proj2 (RS _ _ EE)) as ZX.
        assert (EX' : data env input = x) by (unfold data; rewrite EE; reflexivity). rewrite EX', ZX, <- find_size_run by exact NN. unfold input_layer. destruct ids as [|d0 [|d1 [|d2 [|d3 [|d4 r]]]]]; try reflexivity.
        cbn [run_dims map plain lkind out_size]. specialize (B1 eq_refl). cbn [run_dims map coord nth] in B1. rewrite find_size_run by exact NN. cbn [run_dims map prod]. rewrite B1. lia.
      - destruct (layer_split _ _ _ _ E) as (b1 & nd & a1 & ES & OK & LT'). inversion OK as [|rec L H1 H2 H3 H4 H5 H6 H7 H8 H9]; subst.
        destruct HH as [HO|(_ & HC)]; [|apply constant_index in HC; lia].
        rewrite (data_same nm (n_output nd) _ HO ltac:(apply (from_node M b ins (n_output nd) a E))). exact H7.
      - destruct HH as [HO|(HI & HC')]; [apply below in HO; apply constant_index in HC; unfold M, n0 in *; cbn [o_inputs o_nodes length] in *; lia|]. rewrite (constant_layer_at _ _ HC'), (constant_data nm HI KW). reflexivity.
    Qed.
    Lemma model_supported : impl = SixLoops -> reads_once m -> supported Rnum md 0%nat.
    Proof.
      intros SIX RO. set (isix := fun i => i = SixLoops). change (isix impl) in SIX. destruct load_facts as (LG & AC & CS & F2 & P0 & D & KK & KN & NX & KC).
      assert (KO : forall b ins o a, o_nodes M = b ++ OLayer ins o :: a -> ordinary (lk Rnum md (S (layers_in b)))).
      { intros b ins o a E. destruct (layer_split _ _ _ _ E) as (b1 & nd & a1 & ES & OK & LT'). inversion OK; subst. assumption. }
      constructor; unfold md; cbn [md_graph md_layer].
      - exact LG.
      - exact AC.
      - exact (no_repeat RO).
      - intros k Hk. fold md. destruct (layer_cases k Hk) as [->|[(b & ins & o & a & E & ->)|(c & HC)]].
        + destruct layer_zero as (ids & EI & EL0). destruct (not_constant_at 0%nat ltac:(unfold n0; lia)) as (-> & _). unfold lk, md. cbn [md_layer]. rewrite EL0. split; [discriminate|]. intros (w & EW). unfold input_layer in EW. destruct ids as [|? [|? [|? [|? [|? ?]]]]]; discriminate EW.
        + destruct (layer_split _ _ _ _ E) as (b1 & nd & a1 & ES & OK & LT'). destruct (not_constant_at _ LT') as (-> & _). split; [discriminate|]. intros (w & EW). pose proof (KO _ _ _ _ E) as K. rewrite EW in K. destruct K.
        + split; [intros _; destruct (constant_value _ _ HC) as (w & EW); exists w; exact EW|]. intros _. apply KC. eauto.
      - exact CS.
      - exact single.
      - fold md. destruct layer_zero as (ids & EI & EL0). unfold lk, md. cbn [md_layer]. rewrite EL0. unfold input_layer. destruct ids as [|d0 [|d1 [|d2 [|d3 [|d4 r]]]]]; try (right; eexists; reflexivity).
        left. cbn [run_dims map]. eexists _, _, _. split; [reflexivity|]. assert (P : produced m input) by (left; rewrite EI; left; reflexivity). assert (A : announced m input [d0; d1; d2; d3]) by (unfold announced; rewrite EI; left; reflexivity).
        pose proof (an_sample _ _ AN _ _ P A) as (_ & NN & _). inversion NN as [|? ? _ N1]; inversion N1 as [|? ? Q1 N2]; inversion N2 as [|? ? Q2 N3]; inversion N3 as [|? ? Q3 _]; subst. destruct (d1 =? 0), (d2 =? 0), (d3 =? 0); lia.
      - intros k Hk NE. fold md. destruct (layer_cases k Hk) as [->|[(b & ins & o & a & E & ->)|(c & HC)]]; [congruence| |destruct NE; apply CS; [exact Hk|apply KC; eauto]].
        destruct (layer_split _ _ _ _ E) as (b1 & nd & a1 & ES & OK & LT'). inversion OK as [|rec L H1 H2 H3 H4 H5 H6 H7 H8 H9]; subst.
        assert (EM : map (md_size Rnum md) (previous_layer g (S (layers_in b))) = map zlen (map (data env) ins)); [|rewrite EM; apply H9; exact SIX].
        assert (G2 : forall p n, In p (previous_layer g (S (layers_in b))) -> In n ins -> held_by M cs n p -> md_size Rnum md p = zlen (data env n)).
        { intros p n Hp Hn HP. apply sizes; [eapply (links_closed _ LG); [exact Hk|right; exact Hp]|exact HP|exact (H3 _ Hn)]. }
        pose proof (F2 _ _ _ _ E) as FF. clear -G2 FF. induction FF as [|n p l r K _ IH]; [reflexivity|]. cbn [map]. f_equal; [apply G2; [left; reflexivity|left; reflexivity|exact K]|]. apply IH. intros p' n' Hp Hn. apply G2; right; assumption.
      - intros k p cl C H W Hk EK _. fold md in EK. exfalso. destruct (layer_cases k Hk) as [->|[(b & ins & o & a & E & ->)|(c & HC)]].
        + destruct layer_zero as (ids & EI & EL0). unfold lk, md in EK. cbn [md_layer] in EK. rewrite EL0 in EK. unfold input_layer in EK. destruct ids as [|? [|? [|? [|? [|? ?]]]]]; discriminate EK.
        + pose proof (KO _ _ _ _ E) as K. rewrite EK in K. destruct K.
        + destruct (constant_value _ _ HC) as (w & EW). unfold lk, md in EK. cbn [md_layer] in EK. congruence.
    Qed.
  End Made.

  Lemma loaded : exists nds g cs s, Forall2 (node_ok m env impl) (s_nodes m) nds /\ load_onnx (mkOnnx [input] (map fst (s_init m)) (map fst nds)) = Some (g, cs) /\
    load_model impl m = Some (mkModel Rnum g (layer_at m (made_layers nds) cs) false, s) /\ tri_topo g = Some s /\
    output_of_layer (mkOnnx [input] (map fst (s_init m)) (map fst nds)) output (last (order s) 0%nat) /\ In (last (order s) 0%nat) (dnn g).
  Proof.
    destruct nodes_imported as (nds & EN & HN). destruct (C46_onnx_inputs _ (importable_M nds HN)) as (g & cs & EL & _). destruct (scheduled nds HN g cs EL) as (s & ES & PM & HO).
    exists nds, g, cs, s. split; [exact HN|]. split; [exact EL|]. split; [|split; [exact ES|split; [exact HO|]]].
    - unfold load_model. rewrite EN. cbn [bind]. rewrite (wf_input _ _ _ WF), EL. cbn [bind fst snd]. rewrite ES. reflexivity.
    - apply below in HO. apply (in_g nds HN g cs EL). cbn [o_inputs o_nodes length] in HO. lia.
  Qed.
End Net.
