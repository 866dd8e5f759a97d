(** * Whole PyTorch programs (used by C71). *)
From Coq Require Import String.
From Coq Require Import ZArith List Lia Bool Reals Lra QArith Permutation.
Import ListNotations.
From Verif Require Import CMem Tensor Num RealInst Padding Conv Pooling Movement MovementProofs Linear Graph GraphSpec LayerKinds Net NetProofs Import ImportOtherProofs PropertiesImport PropertiesGraph.
From Verif Require Activation Broadcast.
From Verif Require Import TorchSpec Torch TorchOps TorchOps2.
Open Scope string_scope.
Open Scope list_scope.
Open Scope Z_scope.

(** ** Conditions on the programs. *)
(** The dimensions PyTorch gives to the tensors of a program. *)
Definition shaped (m : program) (sh : string -> list Z) : Prop :=
  sh (p_input m) = p_shape m /\
  forall n, In n (p_nodes m) -> out_dims (n_op n) (map sh (n_inputs n)) = Some (sh (n_name n)).
Definition all_importable (m : program) (sh : string -> list Z) : Prop :=
  forall n, In n (p_nodes m) -> importable (n_op n) (n_given n) (map sh (n_inputs n)).
(** The operations that do not become a layer of their own. *)
Definition in_place (o : op) : bool := absorbed o || passes o.
(** The operand of such an operation is read by nothing else. *)
Definition exclusive (m : program) : Prop :=
  forall n n' a, In n (p_nodes m) -> In n' (p_nodes m) -> in_place (n_op n) = true -> In a (n_inputs n) -> In a (n_inputs n') -> n' = n.
(** The tensor [nm] is the result of the operation [o], followed by operations of
    the class [through]. *)
Inductive comes_from (through : op -> bool) (m : program) : string -> op -> Prop :=
| cf_here n : In n (p_nodes m) -> through (n_op n) = false -> comes_from through m (n_name n) (n_op n)
| cf_through n a o : In n (p_nodes m) -> through (n_op n) = true -> In a (n_inputs n) -> comes_from through m a o -> comes_from through m (n_name n) o.
Definition is_activation (o : op) : bool := match o with Relu | Clamp _ _ => true | _ => false end.
Definition has_filters (o : op) : bool := match o with Conv2d _ _ _ _ _ _ _ _ _ _ _ _ | BatchNorm _ _ _ _ _ => true | _ => false end.
Definition may_absorb (o next : op) : bool := match next with BatchNorm _ _ _ _ _ => has_filters o | _ => negb (is_activation o) end.
(** An activation follows an operation other than an activation; a batch
    normalisation follows a convolution or a batch normalisation. *)
Definition absorbable (m : program) : Prop :=
  forall n a, In n (p_nodes m) -> absorbed (n_op n) = true -> In a (n_inputs n) ->
  exists o, comes_from passes m a o /\ may_absorb o (n_op n) = true.

(** ** Sizes. *)
Lemma size_pos ds : positive_dims ds -> 0 < size_of ds.
Proof. intros F. induction F as [|d ds Hd F IH]; cbn; [lia|]. fold (size_of ds). nia. Qed.
Definition passed_dims (o : op) (ds : list Z) : list Z := match o with Flatten => [size_of ds] | _ => ds end.
Lemma in_place_one o ins out : in_place o = true -> out_dims o ins = Some out -> exists ds, ins = [ds] /\ out = passed_dims o ds.
Proof.
  intros IP E. destruct o; try discriminate IP; destruct ins as [|ds [|? ?]]; try discriminate E; cbn [out_dims] in E; injection E as <-; exists ds; auto.
Qed.
Lemma op_sized o given ins out : Forall positive_dims ins -> importable o given ins -> out_dims o ins = Some out ->
  positive_dims out /\ forall ts, map dims ts = ins -> Forall sized ts -> zlen (result o ts out) = size_of out.
Proof.
  intros P IM EO. destruct (in_place o) eqn:IP.
  - destruct (in_place_one _ _ _ IP EO) as (ds & -> & ->). inversion P as [|? ? P1 _]; subst. split.
    + destruct o; try discriminate IP; try exact P1. cbn [passed_dims]. constructor; [apply size_pos; exact P1|constructor].
    + intros ts E SZ. destruct (TorchOps.one_tensor _ _ E) as (x & ->). inversion SZ as [|? ? (_ & ZX) _]; subst. cbn [dims vals] in ZX.
      destruct o; try discriminate IP; cbn [result passed_dims vals]; rewrite ?Tensor.zlen_map; try exact ZX.
      * unfold normalised. cbn [vals]. rewrite zlen_tab by apply zlen_nonneg. exact ZX.
      * rewrite size1. exact ZX.
  - unfold in_place in IP. apply orb_false_iff in IP. destruct IP as (N1 & N2). destruct (op_created SixLoops 0%R (fun _ => 0%R) _ _ _ _ N1 N2 P IM EO) as (l & C).
    split; [exact (cr_out _ _ _ _ _ _ _ _ C)|]. intros ts E SZ. apply (cr_meaning _ _ _ _ _ _ _ _ C); assumption.
Qed.

Lemma dlookup_map {f : string -> nat * list Z} l nm : In nm l -> dlookup (map (fun k => (k, f k)) l) nm = Some (f nm).
Proof.
  intros H. induction l as [|k l IH]; [destruct H|]. cbn [map dlookup]. destruct (String.eqb_spec k nm) as [->|NE]; [reflexivity|]. apply IH. destruct H; [congruence|assumption].
Qed.
Lemma dassign_map {f : string -> nat * list Z} l nm v : ~ In nm l -> dassign (map (fun k => (k, f k)) l) nm v = map (fun k => (k, f k)) l ++ [(nm, v)].
Proof.
  intros H. induction l as [|k l IH]; [reflexivity|]. cbn [map dassign app]. destruct (String.eqb_spec k nm) as [->|NE]; [exfalso; apply H; left; reflexivity|]. rewrite IH; [reflexivity|].
  intros HI. apply H. right. exact HI.
Qed.
Definition supdate {A} (f : string -> A) (nm : string) (v : A) (x : string) : A := if String.eqb x nm then v else f x.
Lemma supdate_same {A} (f : string -> A) nm v : supdate f nm v nm = v.
Proof. unfold supdate. rewrite String.eqb_refl. reflexivity. Qed.
Lemma supdate_other {A} (f : string -> A) nm v x : x <> nm -> supdate f nm v x = f x.
Proof. intros H. unfold supdate. destruct (String.eqb_spec x nm); [contradiction|reflexivity]. Qed.
Lemma update_same {A} (f : nat -> A) k v : update f k v k = v.
Proof. unfold update. rewrite Nat.eqb_refl. reflexivity. Qed.
Lemma update_other {A} (f : nat -> A) k v i : i <> k -> update f k v i = f i.
Proof. intros H. unfold update. destruct (Nat.eqb_spec i k); [contradiction|reflexivity]. Qed.
Lemma connect_all_extends n c ps : forall l, Forall (fun p => (p < n)%nat) ps -> (c < n)%nat -> extends n c ps l (connect_all ps c l).
Proof.
  induction ps as [|p ps IH]; intros l F Hc; [apply extends_nil|]. inversion F; subst. cbn [connect_all]. apply extends_cons; auto.
Qed.

(** ** The depth-first sort with repeated entries. *)
Lemma go_mono nx f f' (IH : forall st x r, parcours_prof_topo nx f st x = Some r -> parcours_prof_topo nx f' st x = Some r) : forall l st r,
  (fix go (l : list nat) (st : list nat * list nat) : option (list nat * list nat) :=
     match l with [] => Some st | nxt :: l' => if memb nxt (snd st) then go l' st else match parcours_prof_topo nx f st nxt with Some st' => go l' st' | None => None end end) l st = Some r ->
  (fix go (l : list nat) (st : list nat * list nat) : option (list nat * list nat) :=
     match l with [] => Some st | nxt :: l' => if memb nxt (snd st) then go l' st else match parcours_prof_topo nx f' st nxt with Some st' => go l' st' | None => None end end) l st = Some r.
Proof.
  induction l as [|x l IHl]; intros st r E; [exact E|]. destruct (memb x (snd st)); [apply IHl; exact E|].
  destruct (parcours_prof_topo nx f st x) as [st'|] eqn:E1; [|discriminate]. rewrite (IH _ _ _ E1). apply IHl. exact E.
Qed.
Lemma parcours_more nx : forall f f' st x r, (f <= f')%nat -> parcours_prof_topo nx f st x = Some r -> parcours_prof_topo nx f' st x = Some r.
Proof.
  induction f as [|f IH]; intros f' st x r L E; [discriminate|]. destruct f' as [|f']; [lia|]. cbn [parcours_prof_topo] in *. destruct st as [srt visited].
  match type of E with match ?t with _ => _ end = _ => destruct t as [[s' v']|] eqn:EG; [|discriminate] end.
  rewrite (go_mono nx f f' (fun st x r => IH f' st x r ltac:(lia)) _ _ _ EG). exact E.
Qed.
Lemma sort_more nx f f' : (f <= f')%nat -> forall l st r, sort_all nx f l st = Some r -> sort_all nx f' l st = Some r.
Proof.
  intros L. induction l as [|x l IH]; intros st r E; [exact E|]. cbn [sort_all] in *. destruct (memb x (snd st)); [apply IH; exact E|].
  destruct (parcours_prof_topo nx f st x) as [st'|] eqn:E1; [|discriminate]. rewrite (parcours_more _ _ _ _ _ _ L E1). apply IH. exact E.
Qed.
Lemma go_visits nx f (IH : forall st x r, parcours_prof_topo nx f st x = Some r -> In x (snd r) /\ incl (snd st) (snd r)) : forall l st r,
  (fix go (l : list nat) (st : list nat * list nat) : option (list nat * list nat) :=
     match l with [] => Some st | nxt :: l' => if memb nxt (snd st) then go l' st else match parcours_prof_topo nx f st nxt with Some st' => go l' st' | None => None end end) l st = Some r ->
  incl (snd st) (snd r).
Proof.
  induction l as [|x l IHl]; intros st r E; [injection E as <-; apply incl_refl|]. destruct (memb x (snd st)); [apply IHl; exact E|].
  destruct (parcours_prof_topo nx f st x) as [st'|] eqn:E1; [|discriminate]. destruct (IH _ _ _ E1) as (_ & H). eapply incl_tran; [exact H|apply IHl; exact E].
Qed.
Lemma parcours_visits nx : forall f st x r, parcours_prof_topo nx f st x = Some r -> In x (snd r) /\ incl (snd st) (snd r).
Proof.
  induction f as [|f IH]; intros st x r E; [discriminate|]. cbn [parcours_prof_topo] in E. destruct st as [srt visited].
  match type of E with match ?t with _ => _ end = _ => destruct t as [[s' v']|] eqn:EG; [|discriminate] end. injection E as <-.
  pose proof (go_visits nx f IH _ _ _ EG) as H. cbn [snd] in *. split; [apply H; left; reflexivity|]. intros y Hy. apply H. right. exact Hy.
Qed.
Lemma sort_visits nx f : forall l st r, sort_all nx f l st = Some r -> incl l (snd r) /\ incl (snd st) (snd r).
Proof.
  induction l as [|x l IH]; intros st r E; cbn [sort_all] in E.
  - injection E as <-. split; [intros y []|apply incl_refl].
  - destruct (memb x (snd st)) eqn:M.
    + destruct (IH _ _ E) as (H1 & H2). split; [|exact H2]. intros y [<-|Hy]; [|apply H1; exact Hy]. apply H2. apply GraphProofs.memb_In. exact M.
    + destruct (parcours_prof_topo nx f st x) as [st'|] eqn:E1; [|discriminate]. destruct (parcours_visits _ _ _ _ _ E1) as (V1 & V2). destruct (IH _ _ E) as (H1 & H2).
      split; [|eapply incl_tran; eassumption]. intros y [<-|Hy]; [apply H2; exact V1|apply H1; exact Hy].
Qed.
Lemma sort_app nx f l1 l2 : forall st, sort_all nx f (l1 ++ l2) st = match sort_all nx f l1 st with Some st' => sort_all nx f l2 st' | None => None end.
Proof.
  induction l1 as [|x l1 IH]; intros st; [reflexivity|]. cbn [app sort_all]. destruct (memb x (snd st)); [apply IH|]. destruct (parcours_prof_topo nx f st x); [apply IH|reflexivity].
Qed.
Lemma sort_again nx f l k st : In k l -> sort_all nx f (l ++ [k]) st = sort_all nx f l st.
Proof.
  intros H. rewrite sort_app. destruct (sort_all nx f l st) as [st'|] eqn:E; [|reflexivity]. cbn [sort_all].
  destruct (sort_visits _ _ _ _ _ E) as (H1 & _). replace (memb k (snd st')) with true; [reflexivity|]. symmetry. apply GraphProofs.memb_In. apply H1. exact H.
Qed.

(** ** The imported layers. *)
Section Model.
  Variable m : program.
  Variable sh : string -> list Z.
  Hypothesis WF : well_formed m.
  Hypothesis SH : shaped m sh.
  Hypothesis PI : positive_dims (p_shape m).
  Hypothesis IM : all_importable m sh.
  Hypothesis EX : exclusive m.
  Hypothesis AB : absorbable m.

  Definition names (before : list node) : list string := p_input m :: map n_name before.
  Lemma names_snoc b n : names (b ++ [n]) = names b ++ [n_name n].
  Proof. unfold names. rewrite map_app. reflexivity. Qed.
  Lemma in_nodes before n after : p_nodes m = before ++ n :: after -> In n (p_nodes m).
  Proof. intros ->. apply in_or_app. right. left. reflexivity. Qed.
  Lemma fresh before n after : p_nodes m = before ++ n :: after -> ~ In (n_name n) (names before).
  Proof.
    intros E H. pose proof (wf_names _ WF) as ND. rewrite E, map_app in ND. cbn [map] in ND.
    change (p_input m :: map n_name before ++ n_name n :: map n_name after) with (names before ++ n_name n :: map n_name after) in ND.
    apply (NoDup_remove_2 _ _ _ ND). apply in_or_app. left. exact H.
  Qed.
  Lemma same_name n n' : In n (p_nodes m) -> In n' (p_nodes m) -> n_name n = n_name n' -> n = n'.
  Proof.
    intros H H' E. pose proof (wf_names _ WF) as ND. apply NoDup_cons_iff in ND. destruct ND as (_ & ND). revert H H' E ND.
    generalize (p_nodes m). intros l. induction l as [|x l IH]; intros H H' E ND; [destruct H|]. cbn [map] in ND. apply NoDup_cons_iff in ND. destruct ND as (NI & ND).
    destruct H as [->|H], H' as [->|H'].
    - reflexivity.
    - exfalso. apply NI. rewrite E. apply in_map. exact H'.
    - exfalso. apply NI. rewrite <- E. apply in_map. exact H.
    - apply IH; assumption.
  Qed.
  Lemma not_input n : In n (p_nodes m) -> n_name n <> p_input m.
  Proof. intros H E. pose proof (wf_names _ WF) as ND. apply NoDup_cons_iff in ND. apply (proj1 ND). rewrite <- E. apply in_map. exact H. Qed.
  Lemma comes_input th o : ~ comes_from th m (p_input m) o.
  Proof. intros H. inversion H as [n Hn _ E|n a o' Hn _ _ _ E]; exact (not_input n Hn E). Qed.
  Lemma comes_node th n o : In n (p_nodes m) -> comes_from th m (n_name n) o ->
    (th (n_op n) = false /\ o = n_op n) \/ (th (n_op n) = true /\ exists a, In a (n_inputs n) /\ comes_from th m a o).
  Proof.
    intros Hn H. inversion H as [n' Hn' T E|n' a o' Hn' T Ha Hc E]; subst; assert (n' = n) by (apply same_name; assumption); subst n'; [left|right]; eauto.
  Qed.
  Lemma prefix_positive before : forall after, p_nodes m = before ++ after -> Forall (fun nm => positive_dims (sh nm)) (names before).
  Proof.
    induction before as [|n before IH] using rev_ind; intros after E.
    - constructor; [|constructor]. rewrite (proj1 SH). exact PI.
    - rewrite <- app_assoc in E. specialize (IH _ E). cbn [app] in E. rewrite names_snoc. apply Forall_app. split; [exact IH|]. constructor; [|constructor].
      pose proof (in_nodes _ _ _ E) as Hn. eapply op_sized; [|apply IM; exact Hn|apply (proj2 SH); exact Hn].
      apply Forall_forall. intros ds Hd. apply in_map_iff in Hd. destruct Hd as (nm & <- & Hnm). rewrite Forall_forall in IH. apply IH. apply (proj2 (wf_order _ WF _ _ _ E)). exact Hnm.
  Qed.
  Lemma inputs_positive before n after : p_nodes m = before ++ n :: after -> Forall positive_dims (map sh (n_inputs n)).
  Proof.
    intros E. pose proof (prefix_positive before (n :: after) E) as P. rewrite Forall_forall in P.
    apply Forall_forall. intros ds Hd. apply in_map_iff in Hd. destruct Hd as (nm & <- & Hnm). apply P. apply (proj2 (wf_order _ WF _ _ _ E)). exact Hnm.
  Qed.
  (** The tensors of a run have the dimensions of the program. *)
  Lemma run_sized x env : runs m x env -> zlen x = size_of (p_shape m) -> forall before after, p_nodes m = before ++ after ->
    Forall (fun nm => dims (env nm) = sh nm /\ sized (env nm)) (names before).
  Proof.
    intros (R0 & RN) HX before. induction before as [|n before IH] using rev_ind; intros after E.
    - constructor; [|constructor]. rewrite R0. cbn [dims]. split; [symmetry; apply SH|]. split; [exact PI|exact HX].
    - rewrite <- app_assoc in E. specialize (IH _ E). cbn [app] in E. rewrite names_snoc. apply Forall_app. split; [exact IH|]. constructor; [|constructor].
      pose proof (in_nodes _ _ _ E) as Hn. pose proof (RN n Hn) as HA. rewrite Forall_forall in IH. pose proof (proj2 (wf_order _ WF _ _ _ E)) as INC.
      assert (ED : map dims (map env (n_inputs n)) = map sh (n_inputs n)) by (rewrite map_map; apply map_ext_in; intros nm Hnm; apply IH; apply INC; exact Hnm).
      assert (ES : Forall sized (map env (n_inputs n))) by (apply Forall_forall; intros t Ht; apply in_map_iff in Ht; destruct Ht as (nm & <- & Hnm); apply IH; apply INC; exact Hnm).
      unfold apply in HA. rewrite ED, (proj2 SH n Hn) in HA. cbn [bind] in HA. injection HA as HA. rewrite <- HA. cbn [dims]. split; [reflexivity|].
      destruct (op_sized _ _ _ _ (inputs_positive _ _ _ E) (IM n Hn) (proj2 SH n Hn)) as (P & Q). split; [exact P|]. cbn [dims vals]. apply Q; assumption.
  Qed.
  Lemma run_node x env before n after : runs m x env -> zlen x = size_of (p_shape m) -> p_nodes m = before ++ n :: after ->
    map dims (map env (n_inputs n)) = map sh (n_inputs n) /\ Forall sized (map env (n_inputs n)) /\
    env (n_name n) = mkT (sh (n_name n)) (result (n_op n) (map env (n_inputs n)) (sh (n_name n))).
  Proof.
    intros RU HX E. pose proof (run_sized x env RU HX before (n :: after) E) as S. rewrite Forall_forall in S. pose proof (in_nodes _ _ _ E) as Hn. pose proof (proj2 (wf_order _ WF _ _ _ E)) as INC.
    assert (ED : map dims (map env (n_inputs n)) = map sh (n_inputs n)) by (rewrite map_map; apply map_ext_in; intros nm Hnm; apply S; apply INC; exact Hnm).
    split; [exact ED|]. split; [apply Forall_forall; intros t Ht; apply in_map_iff in Ht; destruct Ht as (nm & <- & Hnm); apply S; apply INC; exact Hnm|].
    pose proof (proj2 RU n Hn) as HA. unfold apply in HA. rewrite ED, (proj2 SH n Hn) in HA. cbn [bind] in HA. injection HA as HA. symmetry. exact HA.
  Qed.

  Variable impl : conv_impl.
  Variable ninf : R.
  Variable q : Q -> R.
  Definition all_generable : Prop := forall n, In n (p_nodes m) -> generable (n_op n).

  (** Layer [l] was made for node [n] and holds now the tensor [t], of
      registered dimensions [ds]. *)
  Record holds_tensor (l : layer Rnum) (n : node) (t : string) (ds : list Z) : Prop := {
    h_kind : made_kind (lkind Rnum l) = true;
    h_channels : out_channels Rnum (lkind Rnum l) = channels_of ds;
    h_meaning : forall x env, runs m x env -> zlen x = size_of (p_shape m) -> meaning Rnum ninf q l (map vals (map env (n_inputs n))) = vals (env t);
    h_accepts : impl = SixLoops -> all_generable -> accepts Rnum l (map size_of (map sh (n_inputs n)));
    h_linear : forall o, comes_from passes m t o -> is_activation o = false -> lact Rnum l = Activation.LinearAct;
    h_conv : forall o, comes_from passes m t o -> has_filters o = true -> conv_layer impl l ds;
    h_dense : forall i k w b, comes_from in_place m t (Linear i k w b) -> zlen ds = 1
  }.
  Record inv (before : list node) (st : tstate) (holder : string -> nat) (reg : string -> list Z) (tip : nat -> string) : Prop := {
    v_dic : ts_dic st = map (fun nm => (nm, (holder nm, reg nm))) (names before);
    v_count : (0 < ts_count st)%nat;
    v_input : holder (p_input m) = O;
    v_layer0 : ts_layer st O = import_input (p_shape m);
    v_tip0 : (forall x env, runs m x env -> vals (env (tip O)) = x) /\ (forall o, ~ comes_from passes m (tip O) o) /\
      (forall o, ~ comes_from in_place m (tip O) o) /\ reg (tip O) = p_shape m;
    v_holder : forall nm, In nm (names before) -> (holder nm < ts_count st)%nat;
    v_reg : forall nm, In nm (names before) -> reg nm = sh nm \/ zlen (sh nm) = 1;
    v_size : forall nm, In nm (names before) -> out_size Rnum (lkind Rnum (ts_layer st (holder nm))) = size_of (sh nm);
    v_tip : forall k, (k < ts_count st)%nat -> In (tip k) (names before) /\ holder (tip k) = k;
    v_current : forall nm, In nm (names before) -> (forall n, In n before -> in_place (n_op n) = true -> ~ In nm (n_inputs n)) -> tip (holder nm) = nm;
    v_consumed : forall n a, In n before -> in_place (n_op n) = true -> In a (n_inputs n) -> tip (holder a) <> a;
    v_links : building (ts_count st) (ts_links st);
    v_made : forall n, In n before -> in_place (n_op n) = false -> lprev (ts_links st) (holder (n_name n)) = map holder (n_inputs n) /\ (0 < holder (n_name n))%nat;
    v_origin : forall k, (0 < k < ts_count st)%nat -> exists n, In n before /\ in_place (n_op n) = false /\ holder (n_name n) = k /\ holds_tensor (ts_layer st k) n (tip k) (reg (tip k));
    v_first : lprev (ts_links st) O = [];
    v_sort : forall nx f, sort_all nx f (map holder (names before)) ([], []) = sort_all nx f (seq 0 (ts_count st)) ([], [])
  }.

  (** The tensors read by a node that becomes a layer are those their layers hold now. *)
  Lemma read_current before st holder reg tip n a after : p_nodes m = before ++ n :: after -> inv before st holder reg tip -> In a (n_inputs n) -> tip (holder a) = a.
  Proof.
    intros E V Ha. pose proof (proj2 (wf_order _ WF _ _ _ E) a Ha) as HN. apply (v_current _ _ _ _ _ V a HN). intros n' Hn' IP Ha'.
    assert (HP : In n' (p_nodes m)) by (rewrite E; apply in_or_app; left; exact Hn').
    pose proof (EX n' n a HP (in_nodes _ _ _ E) IP Ha' Ha) as ->. apply (fresh _ _ _ E). right. apply in_map. exact Hn'.
  Qed.
  Lemma inv_start : exists holder reg tip, inv [] (first_state m) holder reg tip.
  Proof.
    exists (fun _ => O), (fun _ => p_shape m), (fun _ => p_input m). constructor; cbn [first_state ts_dic ts_count ts_layer ts_links names map]; try reflexivity; try lia.
    - split; [intros x env (R0 & _); rewrite R0; reflexivity|]. split; [intros o; apply comes_input|]. split; [intros o; apply comes_input|reflexivity].
    - intros nm [<-|[]]. left. symmetry. apply SH.
    - intros nm [<-|[]]. rewrite (proj1 SH). unfold import_input. cbn [plain lkind]. destruct (p_shape m) as [|a [|b [|c [|d r]]]]; try reflexivity. cbn [out_size]. rewrite size3. reflexivity.
    - intros k Hk. split; [left; reflexivity|lia].
    - intros nm [<-|[]] _. reflexivity.
    - intros n a [].
    - apply building_start.
    - intros n [].
  Qed.

  Lemma map_holder {A} (f : string -> A) nm v l before : ~ In nm (names before) -> incl l (names before) -> map (supdate f nm v) l = map f l.
  Proof. intros NI INC. apply map_ext_in. intros a Ha. apply supdate_other. intros ->. apply NI. apply INC. exact Ha. Qed.
  Lemma map_names {A} (f : string -> A) nm v before : ~ In nm (names before) -> map (supdate f nm v) (names before) = map f (names before).
  Proof. intros NI. eapply map_holder; [exact NI|apply incl_refl]. Qed.

  Lemma inv_create before st holder reg tip n after : p_nodes m = before ++ n :: after -> inv before st holder reg tip -> in_place (n_op n) = false ->
    exists st' holder' reg' tip', visit impl st (exported n) (sh (n_name n)) = Some st' /\ inv (before ++ [n]) st' holder' reg' tip'.
  Proof.
    intros E V IP. pose proof (in_nodes _ _ _ E) as Hn. pose proof (wf_order _ WF _ _ _ E) as (NE & INC). fold (names before) in INC. pose proof (fresh _ _ _ E) as FR.
    pose proof IP as IP0. unfold in_place in IP0. apply orb_false_iff in IP0. destruct IP0 as (N1 & N2).
    destruct (op_created impl ninf q _ _ _ _ N1 N2 (inputs_positive _ _ _ E) (IM n Hn) (proj2 SH n Hn)) as (l & C).
    set (vs := map (fun a => (holder a, reg a)) (n_inputs n)).
    set (c := ts_count st).
    exists (add_layer st (n_name n) (sh (n_name n)) (map fst vs) l), (supdate holder (n_name n) c), (supdate reg (n_name n) (sh (n_name n))), (update tip c (n_name n)).
    assert (HO : forall a, In a (names before) -> supdate holder (n_name n) c a = holder a) by (intros a Ha; apply supdate_other; intros ->; exact (FR Ha)).
    assert (RO : forall a, In a (names before) -> supdate reg (n_name n) (sh (n_name n)) a = reg a) by (intros a Ha; apply supdate_other; intros ->; exact (FR Ha)).
    assert (VF : map fst vs = map holder (n_inputs n)) by (unfold vs; rewrite map_map; reflexivity).
    assert (TO : forall k, (k < c)%nat -> update tip c (n_name n) k = tip k) by (intros k Hk; apply update_other; lia).
    assert (NS : forall a, In a (names (before ++ [n])) -> In a (names before) \/ a = n_name n).
    { intros a Ha. rewrite names_snoc in Ha. apply in_app_or in Ha. destruct Ha as [Ha|[<-|[]]]; auto. }
    assert (EXT : extends (S c) c (map fst vs) (ts_links st) (connect_all (map fst vs) c (ts_links st))).
    { apply connect_all_extends; [|lia]. rewrite VF. apply Forall_forall. intros p Hp. apply in_map_iff in Hp. destruct Hp as (a & <- & Ha). pose proof (v_holder _ _ _ _ _ V a (INC a Ha)). unfold c. lia. }
    assert (FL : Forall (fun p => (p < c)%nat) (map fst vs)) by (rewrite VF; apply Forall_forall; intros p Hp; apply in_map_iff in Hp; destruct Hp as (a & <- & Ha); exact (v_holder _ _ _ _ _ V a (INC a Ha))).
    destruct (building_extends _ _ _ _ (v_links _ _ _ _ _ V) FL EXT) as (BE & LC).
    assert (LO : forall i, (i < c)%nat -> lprev (connect_all (map fst vs) c (ts_links st)) i = lprev (ts_links st) i) by (intros i Hi; apply (ex_other _ _ _ _ _ EXT); lia).
    split.
    - pose proof (cr_visit _ _ _ _ _ _ _ _ C st (n_name n) (n_inputs n) vs) as VI. destruct n as [nm o nms gv]. cbn [n_name n_op n_inputs n_given] in *. apply VI.
      + unfold vs. clear VI. rewrite (v_dic _ _ _ _ _ V). clear - INC. induction nms as [|a nms IH]; [constructor|]. cbn [map]. constructor; [|apply IH; intros y Hy; apply INC; right; exact Hy].
        apply (dlookup_map (f := fun nm => (holder nm, reg nm))). apply INC. left. reflexivity.
      + unfold vs. clear VI. pose proof (v_reg _ _ _ _ _ V) as RG. clear - INC RG. induction nms as [|a nms IH]; [constructor|]. cbn [map]. constructor; [apply RG; apply INC; left; reflexivity|apply IH; intros y Hy; apply INC; right; exact Hy].
      + unfold vs. clear VI. pose proof (v_size _ _ _ _ _ V) as RG. clear - INC RG. induction nms as [|a nms IH]; [constructor|]. cbn [map]. constructor; [apply RG; apply INC; left; reflexivity|apply IH; intros y Hy; apply INC; right; exact Hy].
    - pose proof (v_count _ _ _ _ _ V) as CP. fold c in CP. constructor; cbn [add_layer ts_dic ts_count ts_layer ts_links].
      + rewrite (v_dic _ _ _ _ _ V), (dassign_map (f := fun nm => (holder nm, reg nm))) by exact FR. rewrite names_snoc, map_app. cbn [map]. rewrite !supdate_same. f_equal.
        apply map_ext_in. intros a Ha. rewrite (HO a Ha), (RO a Ha). reflexivity.
      + lia.
      + rewrite HO by (left; reflexivity). exact (v_input _ _ _ _ _ V).
      + rewrite update_other by lia. exact (v_layer0 _ _ _ _ _ V).
      + rewrite TO by lia. rewrite RO by (apply (v_tip _ _ _ _ _ V); exact CP). exact (v_tip0 _ _ _ _ _ V).
      + intros a Ha. destruct (NS a Ha) as [Ha'| ->]; [rewrite HO by exact Ha'; pose proof (v_holder _ _ _ _ _ V a Ha'); unfold c; lia|rewrite supdate_same; unfold c; lia].
      + intros a Ha. destruct (NS a Ha) as [Ha'| ->]; [rewrite RO by exact Ha'; exact (v_reg _ _ _ _ _ V a Ha')|rewrite supdate_same; left; reflexivity].
      + intros a Ha. destruct (NS a Ha) as [Ha'| ->].
        * rewrite HO by exact Ha'. rewrite update_other by (pose proof (v_holder _ _ _ _ _ V a Ha'); unfold c; lia). exact (v_size _ _ _ _ _ V a Ha').
        * rewrite supdate_same. unfold c. rewrite update_same. exact (cr_size _ _ _ _ _ _ _ _ C).
      + intros k Hk. destruct (Nat.eq_dec k c) as [->|NK].
        * rewrite update_same, supdate_same. split; [rewrite names_snoc; apply in_or_app; right; left; reflexivity|reflexivity].
        * rewrite TO by (unfold c in *; lia). destruct (v_tip _ _ _ _ _ V k ltac:(unfold c in *; lia)) as (T1 & T2). rewrite HO by exact T1. split; [rewrite names_snoc; apply in_or_app; left; exact T1|exact T2].
      + intros a Ha HF. destruct (NS a Ha) as [Ha'| ->].
        * rewrite HO by exact Ha'. rewrite TO by exact (v_holder _ _ _ _ _ V a Ha'). apply (v_current _ _ _ _ _ V a Ha'). intros n' Hn'. apply HF. apply in_or_app. left. exact Hn'.
        * rewrite supdate_same, update_same. reflexivity.
      + intros n' a Hn' IP' Ha. apply in_app_or in Hn'. destruct Hn' as [Hn'|[<-|[]]]; [|congruence].
        assert (HA : In a (names before)).
        { destruct (in_split _ _ Hn') as (b1 & b2 & EB). assert (E1 : p_nodes m = b1 ++ n' :: (b2 ++ n :: after)) by (rewrite E, EB, <- app_assoc; reflexivity).
          apply (proj2 (wf_order _ WF _ _ _ E1)) in Ha. destruct Ha as [Ha|Ha]; [left; exact Ha|right; rewrite EB, map_app; apply in_or_app; left; exact Ha]. }
        rewrite HO by exact HA. rewrite TO by exact (v_holder _ _ _ _ _ V a HA). exact (v_consumed _ _ _ _ _ V n' a Hn' IP' Ha).
      + exact BE.
      + intros n' Hn' IP'. apply in_app_or in Hn'. destruct Hn' as [Hn'|[<-|[]]].
        * assert (HA : In (n_name n') (names before)) by (right; apply in_map; exact Hn'). rewrite HO by exact HA. destruct (v_made _ _ _ _ _ V n' Hn' IP') as (M1 & M2). split; [|exact M2].
          destruct (in_split _ _ Hn') as (b1 & b2 & EB). assert (E1 : p_nodes m = b1 ++ n' :: (b2 ++ n :: after)) by (rewrite E, EB, <- app_assoc; reflexivity).
          rewrite LO by exact (v_holder _ _ _ _ _ V _ HA). rewrite M1. symmetry. eapply map_holder; [exact FR|]. intros a Ha. apply (proj2 (wf_order _ WF _ _ _ E1)) in Ha.
          destruct Ha as [Ha|Ha]; [left; exact Ha|right; rewrite EB, map_app; apply in_or_app; left; exact Ha].
        * rewrite supdate_same. split; [|exact CP]. etransitivity; [exact LC|]. rewrite VF. symmetry. eapply map_holder; [exact FR|exact INC].
      + intros k Hk. destruct (Nat.eq_dec k c) as [->|NK].
        * exists n. split; [apply in_or_app; right; left; reflexivity|]. split; [exact IP|]. rewrite supdate_same. split; [reflexivity|]. unfold c. rewrite !update_same, supdate_same.
          assert (CN : forall th o, th (n_op n) = false -> comes_from th m (n_name n) o -> o = n_op n).
          { intros th o T H. destruct (comes_node th n o Hn H) as [(_ & ->)|(T' & _)]; [reflexivity|congruence]. }
          constructor.
          -- exact (cr_kind _ _ _ _ _ _ _ _ C).
          -- exact (cr_channels _ _ _ _ _ _ _ _ C).
          -- intros x env RU HX. destruct (run_node x env _ _ _ RU HX E) as (ED & ES & EV). rewrite EV. cbn [vals]. apply (cr_meaning _ _ _ _ _ _ _ _ C); assumption.
          -- intros S6 G. apply (cr_accepts _ _ _ _ _ _ _ _ C); [exact S6|]. apply G. exact Hn.
          -- intros o _ _. exact (cr_act _ _ _ _ _ _ _ _ C).
          -- intros o H F. apply CN in H; [|exact N2]. subst o. pose proof (cr_conv _ _ _ _ _ _ _ _ C) as CC. destruct (n_op n); try discriminate; exact CC.
          -- intros i k w b H. apply CN in H; [|exact IP]. pose proof (cr_dense _ _ _ _ _ _ _ _ C) as CC. rewrite <- H in CC. exact CC.
        * destruct (v_origin _ _ _ _ _ V k ltac:(unfold c in *; lia)) as (n' & Hn' & IP' & HN & HT). exists n'. split; [apply in_or_app; left; exact Hn'|]. split; [exact IP'|].
          rewrite HO by (right; apply in_map; exact Hn'). split; [exact HN|]. rewrite update_other by (unfold c in *; lia). rewrite TO by (unfold c in *; lia). rewrite RO by (apply (v_tip _ _ _ _ _ V); unfold c in *; lia). exact HT.
      + rewrite LO by exact CP. exact (v_first _ _ _ _ _ V).
      + intros nx f. rewrite names_snoc, map_app, (map_names holder _ _ _ FR). cbn [map]. rewrite supdate_same. rewrite seq_S, !sort_app, (v_sort _ _ _ _ _ V). reflexivity.
  Qed.

  Lemma in_place_step before st holder reg tip n a after : p_nodes m = before ++ n :: after -> inv before st holder reg tip -> in_place (n_op n) = true -> n_inputs n = [a] ->
    let k := holder a in
    exists layer', visit impl st (exported n) (sh (n_name n)) = Some (mkTS (ts_count st) (dassign (ts_dic st) (n_name n) (k, reg a)) (ts_links st) layer') /\
      (forall i, i <> k -> layer' i = ts_layer st i) /\ (k = O -> layer' k = ts_layer st k /\ passes (n_op n) = true) /\
      out_size Rnum (lkind Rnum (layer' k)) = out_size Rnum (lkind Rnum (ts_layer st k)) /\
      (forall n0, (0 < k)%nat -> holds_tensor (ts_layer st k) n0 a (reg a) -> holds_tensor (layer' k) n0 (n_name n) (reg a)).
  Proof.
    intros E V IP EI k. pose proof (in_nodes _ _ _ E) as Hn. pose proof (wf_order _ WF _ _ _ E) as (_ & INC). rewrite EI in INC. pose proof (INC a (or_introl eq_refl)) as HA. fold (names before) in HA.
    pose proof (IM n Hn) as (DF & IMP). pose proof (proj2 SH n Hn) as SO. rewrite EI in SO, IMP. cbn [map] in SO, IMP.
    assert (LK : dlookup (ts_dic st) a = Some (k, reg a)) by (rewrite (v_dic _ _ _ _ _ V); apply (dlookup_map (f := fun nm => (holder nm, reg nm))); exact HA).
    assert (TA : tip k = a) by (eapply read_current; [exact E|exact V|rewrite EI; left; reflexivity]).
    assert (EV : forall x env, runs m x env -> zlen x = size_of (p_shape m) -> vals (env (n_name n)) = result (n_op n) [env a] (sh (n_name n)) /\ sized (env a) /\ dims (env a) = sh a).
    { intros x env RU HX. destruct (run_node x env _ _ _ RU HX E) as (ED & ES & EE). rewrite EI in ED, ES, EE. cbn [map] in *. rewrite EE at 1. split; [reflexivity|]. split; [exact (Forall_inv ES)|]. injection ED as ED. exact ED. }
    assert (TH : forall th o, th (n_op n) = true -> comes_from th m (n_name n) o -> comes_from th m a o).
    { intros th o T H. destruct (comes_node th n o Hn H) as [(T' & _)|(_ & b & Hb & Hc)]; [congruence|]. rewrite EI in Hb. destruct Hb as [<-|[]]. exact Hc. }
    assert (HR : forall o, passes (n_op n) = false -> comes_from passes m (n_name n) o -> o = n_op n).
    { intros o T H. destruct (comes_node passes n o Hn H) as [(_ & ->)|(T' & _)]; [reflexivity|congruence]. }
    assert (NZ : absorbed (n_op n) = true -> (0 < k)%nat /\ exists o, comes_from passes m a o /\ may_absorb o (n_op n) = true).
    { intros HAb. destruct (AB n a Hn HAb ltac:(rewrite EI; left; reflexivity)) as (o & CF & MA). split; [|exists o; auto].
      destruct (Nat.eq_dec k 0) as [EK|NK]; [exfalso|lia]. rewrite <- TA, EK in CF. exact (proj1 (proj2 (v_tip0 _ _ _ _ _ V)) o CF). }
    assert (FA : forall r, exists args', firstn (n_given n) (ANode a :: r) = ANode a :: args' /\ args' = firstn (n_given n - 1) r).
    { intros r. assert (G1 : (1 <= n_given n)%nat) by (destruct (n_op n); try discriminate IP; cbn [defaults_omitted] in DF; lia). destruct (n_given n) as [|g]; [lia|]. cbn [firstn]. eexists. split; [reflexivity|]. f_equal. lia. }
    destruct n as [nm o nms gv]. cbn [n_name n_op n_inputs n_given] in *. subst nms. unfold exported, visit. cbn [n_name n_op n_inputs n_given c_target c_args c_name].
    assert (PS : passes o = true -> forall n0, holds_tensor (ts_layer st k) n0 a (reg a) -> holds_tensor (ts_layer st k) n0 nm (reg a)).
    { intros PO n0 H. constructor; try apply H.
      - intros x env RU HX. rewrite (h_meaning _ _ _ _ H x env RU HX). destruct (EV x env RU HX) as (-> & _). destruct o; try discriminate PO; reflexivity.
      - intros o' CF HL. apply TH in CF; [|exact PO]. eapply (h_linear _ _ _ _ H); eassumption.
      - intros o' CF HL. apply TH in CF; [|exact PO]. eapply (h_conv _ _ _ _ H); eassumption.
      - intros i j w b CF. apply TH in CF; [|exact IP]. eapply (h_dense _ _ _ _ H); eassumption. }
    assert (ACT : forall act, is_activation o = true -> act_supported Rnum act -> (forall x, map (Activation.compute Rnum act) (vals x) = result o [x] (sh nm)) ->
      forall n0, holds_tensor (ts_layer st k) n0 a (reg a) -> holds_tensor (with_activation (ts_layer st k) act) n0 nm (reg a)).
    { intros act IA HS HV n0 H. destruct (NZ ltac:(destruct o; try discriminate IA; reflexivity)) as (_ & o' & CF & MA).
      assert (NAO : is_activation o' = false) by (destruct o; try discriminate IA; cbn [may_absorb] in MA; apply negb_true_iff; exact MA).
      assert (IPO : passes o = false) by (destruct o; try discriminate IA; reflexivity).
      pose proof (h_linear _ _ _ _ H o' CF NAO) as LA. pose proof (h_kind _ _ _ _ H) as MK. destruct (ts_layer st k) as [kd ac] eqn:EL. cbn [lact] in LA. subst ac. cbn [lkind] in MK. unfold with_activation. cbn [lkind].
      constructor; cbn [lkind lact].
      - exact MK.
      - exact (h_channels _ _ _ _ H).
      - intros x env RU HX. etransitivity; [apply activation_meaning; exact MK|]. rewrite (h_meaning _ _ _ _ H x env RU HX). destruct (EV x env RU HX) as (-> & _). apply HV.
      - intros S6 G. eapply activation_accepts; [exact MK|exact (h_accepts _ _ _ _ H S6 G)|exact HS].
      - intros o2 CF2 HL. apply HR in CF2; [|exact IPO]. subst o2. congruence.
      - intros o2 CF2 HL. apply HR in CF2; [|exact IPO]. subst o2. destruct o; discriminate.
      - intros i j w b CF2. apply TH in CF2; [|exact IP]. eapply (h_dense _ _ _ _ H); exact CF2. }
    destruct o; try discriminate IP; cbn [target arguments map app] in *; dispatch.
    - (* relu *) destruct (FA []) as (args' & -> & _). cbn [nth_error bind held]. rewrite LK. cbn [bind fst]. destruct (NZ eq_refl) as (KP & _).
      eexists. split; [reflexivity|]. cbn [ts_layer set_layer fst]. split; [intros i Hi; apply update_other; exact Hi|]. split; [intros K0; lia|]. rewrite update_same. split; [reflexivity|].
      intros n0 _ H. apply ACT; [reflexivity|exact relu_supported| |exact H]. intros x. apply relu_value.
    - (* clamp *) destruct IMP as (l & h & -> & -> & LH). cbn [number]. cbn [defaults_omitted] in DF.
      assert (G3 : (3 <= gv)%nat) by (destruct DF as (D1 & _); destruct (Nat.lt_ge_cases gv 3) as [L|L]; [specialize (D1 L); discriminate|exact L]).
      destruct gv as [|[|[|g]]]; try lia. cbn [firstn nth_error bind held]. rewrite LK. cbn [bind fst]. destruct (Rlt_dec h l) as [HL|_]; [lra|]. destruct (NZ eq_refl) as (KP & _).
      eexists. split; [reflexivity|]. cbn [ts_layer set_layer fst]. split; [intros i Hi; apply update_other; exact Hi|]. split; [intros K0; lia|]. rewrite update_same. split; [reflexivity|].
      intros n0 _ H. apply ACT; [reflexivity|apply clamp_supported; exact LH| |exact H]. intros x. apply clamp_value. exact LH.
    - (* batch_norm *) destruct (NZ eq_refl) as (KP & o' & CF & MA). cbn [may_absorb] in MA.
      destruct IMP as (C & H & W & u & v & ES & -> & -> & Z1 & Z2 & Z3 & Z4). injection ES as ES.
      assert (RA : reg a = sh a) by (destruct (v_reg _ _ _ _ _ V a HA) as [R1|R1]; [exact R1|rewrite ES in R1; unfold zlen in R1; cbn in R1; lia]).
      destruct (v_origin _ _ _ _ _ V k (conj KP (v_holder _ _ _ _ _ V a HA))) as (n0 & _ & _ & _ & HT). rewrite TA in HT.
      assert (NAO : is_activation o' = false) by (destruct o'; try discriminate MA; reflexivity).
      destruct (fused_meaning ninf q impl (ts_layer st k) (reg a) gv (Some u) (Some v) mean var eps (h_conv _ _ _ _ HT o' CF MA) (h_linear _ _ _ _ HT o' CF NAO)) as (l' & F1 & F2 & F3 & F4 & F5 & F6 & F7 & F8).
      { split; [exact DF|]. rewrite RA, ES. exists C, H, W, u, v. repeat (split; [first [reflexivity|assumption]|]). assumption. }
      specialize (F1 a). cbn [arguments map app] in F1.
      cbn [defaults_omitted] in DF. destruct gv as [|gv]; [lia|].
      cbn [firstn nth_error bind held] in F1 |- *. rewrite LK. cbn [bind fst]. rewrite F1. cbn [bind].
      eexists. split; [reflexivity|]. cbn [ts_layer set_layer fst]. split; [intros i Hi; apply update_other; exact Hi|]. split; [intros K0; lia|]. rewrite update_same. split; [exact F4|].
      intros n1 _ HT1. constructor.
      + exact F6.
      + rewrite F5. exact (h_channels _ _ _ _ HT1).
      + intros x env RU HX. pose proof (h_meaning _ _ _ _ HT1 x env RU HX) as HM. destruct (EV x env RU HX) as (EE & (_ & SZ) & DD). rewrite F8; [|rewrite HM, RA, <- DD; exact SZ].
        rewrite HM, EE, RA, <- DD. destruct (env a). reflexivity.
      + intros S6 G. apply F7. exact (h_accepts _ _ _ _ HT1 S6 G).
      + intros _ _ _. exact F3.
      + intros _ _ _. exact F2.
      + intros i j w b CF2. apply TH in CF2; [|exact IP]. eapply (h_dense _ _ _ _ HT1); exact CF2.
    - (* dropout *) destruct (FA [AFloat (1 / 2)%R; ABool false]) as (args' & -> & _). cbn [nth_error bind held]. rewrite LK. cbn [bind fst].
      exists (ts_layer st). split; [reflexivity|]. split; [reflexivity|]. split; [intros _; split; reflexivity|]. split; [reflexivity|]. intros n0 _. apply PS. reflexivity.
    - (* flatten *) destruct (FA [AInt 1]) as (args' & -> & _). cbn [nth_error bind held]. rewrite LK. cbn [bind fst].
      exists (ts_layer st). split; [reflexivity|]. split; [reflexivity|]. split; [intros _; split; reflexivity|]. split; [reflexivity|]. intros n0 _. apply PS. reflexivity.
  Qed.

  Lemma inv_in_place before st holder reg tip n after : p_nodes m = before ++ n :: after -> inv before st holder reg tip -> in_place (n_op n) = true ->
    exists st' holder' reg' tip', visit impl st (exported n) (sh (n_name n)) = Some st' /\ inv (before ++ [n]) st' holder' reg' tip'.
  Proof.
    intros E V IP. pose proof (in_nodes _ _ _ E) as Hn. pose proof (wf_order _ WF _ _ _ E) as (_ & INC). fold (names before) in INC. pose proof (fresh _ _ _ E) as FR.
    destruct (in_place_one _ _ _ IP (proj2 SH n Hn)) as (ds & EM & EO). destruct (n_inputs n) as [|a [|? ?]] eqn:EI; try discriminate. cbn [map] in EM. injection EM as ED. subst ds.
    pose proof (INC a (or_introl eq_refl)) as HA. destruct (in_place_step _ _ _ _ _ _ a _ E V IP EI) as (layer' & VI & LO & L0 & SZ & HT). set (k := holder a) in *.
    assert (TA : tip k = a) by (eapply read_current; [exact E|exact V|rewrite EI; left; reflexivity]).
    assert (KC : (k < ts_count st)%nat) by (apply (v_holder _ _ _ _ _ V); exact HA).
    assert (NA : n_name n <> a) by (intros EQ; apply FR; rewrite EQ; exact HA).
    eexists _, (supdate holder (n_name n) k), (supdate reg (n_name n) (reg a)), (update tip k (n_name n)). split; [exact VI|].
    assert (HO : forall b, In b (names before) -> supdate holder (n_name n) k b = holder b) by (intros b Hb; apply supdate_other; intros ->; exact (FR Hb)).
    assert (RO : forall b, In b (names before) -> supdate reg (n_name n) (reg a) b = reg b) by (intros b Hb; apply supdate_other; intros ->; exact (FR Hb)).
    assert (NS : forall b, In b (names (before ++ [n])) -> In b (names before) \/ b = n_name n).
    { intros b Hb. rewrite names_snoc in Hb. apply in_app_or in Hb. destruct Hb as [Hb|[<-|[]]]; auto. }
    assert (TH : forall th o, th (n_op n) = true -> comes_from th m (n_name n) o -> comes_from th m a o).
    { intros th o T H. destruct (comes_node th n o Hn H) as [(T' & _)|(_ & b & Hb & Hc)]; [congruence|]. rewrite EI in Hb. destruct Hb as [<-|[]]. exact Hc. }
    assert (OLD : forall n' b, In n' before -> In b (n_inputs n') -> In b (names before)).
    { intros n' b Hn' Hb. destruct (in_split _ _ Hn') as (b1 & b2 & EB). assert (E1 : p_nodes m = b1 ++ n' :: (b2 ++ n :: after)) by (rewrite E, EB, <- app_assoc; reflexivity).
      apply (proj2 (wf_order _ WF _ _ _ E1)) in Hb. destruct Hb as [Hb|Hb]; [left; exact Hb|right; rewrite EB, map_app; apply in_or_app; left; exact Hb]. }
    pose proof (v_count _ _ _ _ _ V) as CP. constructor; cbn [ts_dic ts_count ts_layer ts_links].
    - rewrite (v_dic _ _ _ _ _ V), (dassign_map (f := fun nm => (holder nm, reg nm))) by exact FR. rewrite names_snoc, map_app. cbn [map]. rewrite !supdate_same. f_equal.
      apply map_ext_in. intros b Hb. rewrite (HO b Hb), (RO b Hb). reflexivity.
    - exact CP.
    - rewrite HO by (left; reflexivity). exact (v_input _ _ _ _ _ V).
    - destruct (Nat.eq_dec k 0) as [K0|K0]; [|rewrite LO by congruence; exact (v_layer0 _ _ _ _ _ V)]. destruct (L0 K0) as (L1 & _). rewrite K0 in L1. rewrite L1. exact (v_layer0 _ _ _ _ _ V).
    - destruct (v_tip0 _ _ _ _ _ V) as (T1 & T2 & T3 & T4). destruct (Nat.eq_dec k 0) as [K0|K0].
      + rewrite <- K0, update_same, supdate_same. rewrite K0 in TA. rewrite TA in T1, T2, T3, T4. destruct (L0 K0) as (_ & PO). split; [|split; [|split]].
        * intros x env RU. pose proof (proj2 RU n Hn) as AP. rewrite EI in AP. cbn [map] in AP. unfold apply in AP. rewrite <- (T1 x env RU).
          destruct (n_op n); try discriminate PO; cbn [out_dims map bind result] in AP; injection AP as <-; reflexivity.
        * intros o H. apply (T2 o). apply TH; [exact PO|exact H].
        * intros o H. apply (T3 o). apply TH; [exact IP|exact H].
        * exact T4.
      + rewrite update_other by congruence. rewrite RO by (apply (v_tip _ _ _ _ _ V); exact CP). auto.
    - intros b Hb. destruct (NS b Hb) as [Hb'| ->]; [rewrite HO by exact Hb'; exact (v_holder _ _ _ _ _ V b Hb')|rewrite supdate_same; exact KC].
    - intros b Hb. destruct (NS b Hb) as [Hb'| ->]; [rewrite RO by exact Hb'; exact (v_reg _ _ _ _ _ V b Hb')|rewrite supdate_same].
      rewrite EO. destruct (n_op n); try discriminate IP; cbn [passed_dims]; try (exact (v_reg _ _ _ _ _ V a HA)). right. reflexivity.
    - assert (SK : forall i, out_size Rnum (lkind Rnum (layer' i)) = out_size Rnum (lkind Rnum (ts_layer st i))).
      { intros i. destruct (Nat.eq_dec i k) as [->|NK]; [exact SZ|rewrite LO by exact NK; reflexivity]. }
      intros b Hb. rewrite SK. destruct (NS b Hb) as [Hb'| ->]; [rewrite HO by exact Hb'; exact (v_size _ _ _ _ _ V b Hb')|rewrite supdate_same].
      unfold k. rewrite (v_size _ _ _ _ _ V a HA), EO. destruct (n_op n); try discriminate IP; cbn [passed_dims]; try reflexivity. symmetry. apply size1.
    - intros i Hi. destruct (Nat.eq_dec i k) as [->|NK].
      + rewrite update_same, supdate_same. split; [rewrite names_snoc; apply in_or_app; right; left; reflexivity|reflexivity].
      + rewrite update_other by exact NK. destruct (v_tip _ _ _ _ _ V i Hi) as (T1 & T2). rewrite HO by exact T1. split; [rewrite names_snoc; apply in_or_app; left; exact T1|exact T2].
    - intros b Hb HF. destruct (NS b Hb) as [Hb'| ->]; [|rewrite supdate_same, update_same; reflexivity].
      rewrite HO by exact Hb'. assert (CB : tip (holder b) = b) by (apply (v_current _ _ _ _ _ V b Hb'); intros n' Hn'; apply HF; apply in_or_app; left; exact Hn').
      rewrite update_other; [exact CB|]. intros HK. rewrite HK, TA in CB. subst b. apply (HF n ltac:(apply in_or_app; right; left; reflexivity) IP). rewrite EI. left. reflexivity.
    - intros n' b Hn' IP' Hb. apply in_app_or in Hn'. destruct Hn' as [Hn'|[<-|[]]].
      + pose proof (OLD n' b Hn' Hb) as HB. rewrite HO by exact HB. unfold update. destruct (Nat.eqb_spec (holder b) k) as [_|_]; [intros <-; exact (FR HB)|exact (v_consumed _ _ _ _ _ V n' b Hn' IP' Hb)].
      + rewrite EI in Hb. destruct Hb as [<-|[]]. rewrite HO by exact HA. fold k. rewrite update_same. exact NA.
    - exact (v_links _ _ _ _ _ V).
    - intros n' Hn' IP'. apply in_app_or in Hn'. destruct Hn' as [Hn'|[<-|[]]]; [|congruence].
      rewrite HO by (right; apply in_map; exact Hn'). destruct (v_made _ _ _ _ _ V n' Hn' IP') as (M1 & M2). split; [|exact M2]. rewrite M1. symmetry. eapply map_holder; [exact FR|].
      intros b Hb. exact (OLD n' b Hn' Hb).
    - intros i Hi. destruct (v_origin _ _ _ _ _ V i Hi) as (n0 & Hn0 & IP0 & HN & H0). exists n0. split; [apply in_or_app; left; exact Hn0|]. split; [exact IP0|].
      rewrite HO by (right; apply in_map; exact Hn0). split; [exact HN|]. destruct (Nat.eq_dec i k) as [->|NK].
      + rewrite update_same, supdate_same. apply HT; [lia|]. rewrite TA in H0. exact H0.
      + rewrite LO by exact NK. rewrite update_other by exact NK. rewrite RO by (apply (v_tip _ _ _ _ _ V); lia). exact H0.
    - exact (v_first _ _ _ _ _ V).
    - intros nx f. rewrite names_snoc, map_app, (map_names holder _ _ _ FR). cbn [map]. rewrite supdate_same, sort_again by (apply in_map; exact HA). exact (v_sort _ _ _ _ _ V nx f).
  Qed.

  Lemma shape_of_env env nm : (forall k ds, In (k, ds) env -> ds = sh k) -> In nm (map fst env) -> shape_of env nm = Some (sh nm).
  Proof.
    intros HE. induction env as [|[k ds] env IH]; intros HI; [destruct HI|]. cbn [shape_of]. destruct (String.eqb_spec nm k) as [->|NE].
    - rewrite (HE k ds (or_introl eq_refl)). reflexivity.
    - apply IH; [intros k' ds' H; apply HE; right; exact H|]. destruct HI as [HI|HI]; [cbn in HI; congruence|exact HI].
  Qed.
  Lemma shapes_env env nms : (forall k ds, In (k, ds) env -> ds = sh k) -> incl nms (map fst env) -> all_some (map (shape_of env) nms) = Some (map sh nms).
  Proof.
    intros HE. induction nms as [|nm nms IH]; intros HI; [reflexivity|]. cbn [map all_some]. rewrite (shape_of_env env nm HE) by (apply HI; left; reflexivity). cbn [bind].
    rewrite IH by (intros y Hy; apply HI; right; exact Hy). reflexivity.
  Qed.
  Lemma visit_all_ok : forall after before env st holder reg tip, p_nodes m = before ++ after -> inv before st holder reg tip ->
    (forall k ds, In (k, ds) env -> ds = sh k) -> incl (names before) (map fst env) ->
    exists st' holder' reg' tip', visit_all impl env st after = Some st' /\ inv (p_nodes m) st' holder' reg' tip'.
  Proof.
    induction after as [|n after IH]; intros before env st holder reg tip E V HE HI.
    - rewrite app_nil_r in E. rewrite E. exists st, holder, reg, tip. auto.
    - pose proof (in_nodes _ _ _ E) as Hn. pose proof (wf_order _ WF _ _ _ E) as (_ & INC). cbn [visit_all]. rewrite (shapes_env env _ HE) by (eapply incl_tran; [exact INC|exact HI]). cbn [bind].
      rewrite (proj2 SH n Hn). cbn [bind].
      assert (ST : exists st' holder' reg' tip', visit impl st (exported n) (sh (n_name n)) = Some st' /\ inv (before ++ [n]) st' holder' reg' tip').
      { destruct (in_place (n_op n)) eqn:IP; [eapply inv_in_place|eapply inv_create]; eassumption. }
      destruct ST as (st' & h' & r' & t' & E1 & V1). rewrite E1. cbn [bind]. eapply (IH (before ++ [n])); [rewrite <- app_assoc; exact E|exact V1| |].
      + intros k ds [H|H]; [injection H as <- <-; reflexivity|apply HE; exact H].
      + rewrite names_snoc. apply incl_app; [cbn [map]; apply incl_tl; exact HI|]. intros y [<-|[]]. left. reflexivity.
  Qed.
End Model.
