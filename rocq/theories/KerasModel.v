(** * Whole Keras models (used by C69). *)
From Coq Require Import String.
From Coq Require Import ZArith List Lia Bool Reals Lra QArith Permutation.
Import ListNotations.
From Verif Require Import CMem Tensor Num RealInst Padding Conv Pooling Pad Reduce Movement MovementProofs Linear Graph GraphSpec LayerKinds Net Import ImportOtherProofs PropertiesImport PropertiesGraph.
From Verif Require Activation Broadcast.
From Verif Require Import KerasSpec Keras KerasProofs KerasOps KerasOps2 KerasOps3.
Open Scope list_scope.
Open Scope Z_scope.

(** The dimensions Keras gives to the tensors of a model. *)
Definition shaped (m : kmodel) (sh : string -> list Z) : Prop :=
  sh (k_input m) = k_shape m /\
  forall n, In n (k_nodes m) -> out_dims (n_op n) (map sh (n_inputs n)) = Some (sh (n_name n)).

(** ** One layer. *)
Definition positive_dims (ds : list Z) : Prop := Forall (fun d => 0 < d) ds.
Record built (impl : conv_impl) (ninf : R) (q : Q -> R) (o : op) (ins : list (list Z)) (out : list Z) (l : layer Rnum) : Prop := {
  b_import : import_layer impl o ins out = Some l;
  b_size : out_size Rnum (lkind Rnum l) = size_of out;
  b_channels : out_channels Rnum (lkind Rnum l) = match out with [H; W; C] => Some (C, H, W) | _ => None end;
  b_kind : match lkind Rnum l with KInput4 _ _ _ _ | KInput _ _ | KConstant _ _ | KSoftmax _ _ _ _ _ => False | KFlatten _ _ _ _ _ => exists fmt, o = Flatten fmt | _ => True end;
  b_out : positive_dims out;
  b_sized : forall ts, map dims ts = ins -> Forall sized ts -> zlen (result o ts out) = size_of out /\ zlen (result (unsoft o) ts out) = size_of out;
  b_meaning : forall ts, map dims ts = ins -> Forall sized ts -> meaning Rnum ninf q l (map lay ts) = layout out (result (unsoft o) ts out);
  b_accepts : impl = SixLoops -> generable o ins -> accepts Rnum l (map size_of ins)
}.
Definition zeros (ds : list Z) : tensor := mkT ds (tab (size_of ds) (fun _ => 0%R)).
Lemma size_nonneg ds : positive_dims ds -> 0 < size_of ds.
Proof. intros F. induction F as [|d ds Hd F IH]; cbn; [lia|]. fold (size_of ds). nia. Qed.
Lemma zeros_sized ds : positive_dims ds -> sized (zeros ds).
Proof. intros F. split; [exact F|]. cbn [zeros dims vals]. apply zlen_tab. pose proof (size_nonneg _ F). lia. Qed.
Lemma op_built impl ninf q o ins out : Forall positive_dims ins -> importable o ins -> out_dims o ins = Some out ->
  exists l, built impl ninf q o ins out l.
Proof.
  intros F HI HO.
  assert (E0 : map dims (map zeros ins) = ins) by (rewrite map_map; apply map_id).
  assert (S0 : Forall sized (map zeros ins)).
  { apply Forall_forall. intros t Ht. apply in_map_iff in Ht. destruct Ht as (ds & <- & Hd). apply zeros_sized. rewrite Forall_forall in F. apply F. exact Hd. }
  assert (A : forall ts, map dims ts = ins -> apply o ts = Some (mkT out (result o ts out))).
  { intros ts E. unfold apply. rewrite E, HO. reflexivity. }
  assert (G : forall ts, map dims ts = ins -> Forall sized ts -> good impl ninf q o ts (mkT out (result o ts out))).
  { intros ts E SZ. apply op_good; [exact SZ|rewrite E; exact HI|apply A; exact E]. }
  destruct (G _ E0 S0) as (Z0 & l & IL & HS & HC & HK & _ & _ & HA). cbn [dims] in *. rewrite E0 in *.
  exists l. constructor; try assumption.
  - exact (proj1 Z0).
  - intros ts E SZ. destruct (G _ E SZ) as (Z1 & l' & _ & _ & _ & _ & ZU & _). split; [exact (proj2 Z1)|exact ZU].
  - intros ts E SZ. destruct (G _ E SZ) as (_ & l' & IL' & _ & _ & _ & _ & HM & _). cbn [dims] in *. rewrite E, IL in IL'. injection IL' as <-. exact HM.
  - intros HI1 HG. specialize (HA HI1 HG). rewrite map_map in HA. exact HA.
Qed.

(** ** Softmax. *)
Lemma softmax_shape o ins out : Forall positive_dims ins -> importable o ins -> out_dims o ins = Some out -> is_softmax o = true ->
  exists n, 0 < n /\ (out = [n] \/ out = [1; 1; n]).
Proof.
  intros F HI HO HS. destruct o; try discriminate HS; destruct a; try discriminate HS.
  - destruct HI as (HU & _ & n & -> & _). cbn in HO. injection HO as <-. exists units. auto.
  - destruct HI as (_ & _ & _ & _ & _ & HF & _ & _ & H). rewrite (H eq_refl) in HO. injection HO as <-. exists filters. auto.
Qed.
Lemma layout_row n x : 0 < n -> zlen x = n -> layout [1; 1; n] x = x.
Proof.
  intros Hn HX. cbn [layout]. unfold to_first. unfold tab3, at3. etransitivity; [|symmetry; apply (tab_nthZ 0%R)]. rewrite HX. replace (n * 1 * 1) with n by lia. apply tab_ext.
  intros k Hk. f_equal. unfold idx3. rewrite !Z.mul_1_r, !Z.div_1_r, !Z.mod_1_r. lia.
Qed.
Lemma softmax_built ninf q out n y : 0 < n -> (out = [n] \/ out = [1; 1; n]) -> zlen y = n ->
  exists l, import_softmax out = Some l /\ l = mkLayer Rnum (KSoftmax Rnum 1 1 n 3) Activation.LinearAct /\
    meaning Rnum ninf q l [layout out y] = layout out (softmaxed out y) /\ size_of out = n /\ last out 1 = n.
Proof.
  intros Hn HO HY. assert (ES : size_of out = n) by (destruct HO as [-> | ->]; unfold size_of; cbn [fold_right]; lia). assert (EL : last out 1 = n) by (destruct HO as [-> | ->]; reflexivity).
  exists (mkLayer Rnum (KSoftmax Rnum 1 1 n 3) Activation.LinearAct).
  assert (LO : forall z, zlen z = n -> layout out z = z) by (intros z Hz; destruct HO as [-> | ->]; [reflexivity|apply layout_row; assumption]).
  split; [|split; [reflexivity|split; [|split; assumption]]].
  - unfold import_softmax. rewrite ES. assert (EB : existsb (Z.eqb n) (moved out) = true) by (destruct HO as [-> | ->]; cbn; rewrite Z.eqb_refl, ?orb_true_r; reflexivity). rewrite EB. reflexivity.
  - rewrite (LO y HY). assert (ZS : zlen (softmaxed out y) = n) by (rewrite zlen_softmaxed; [exact HY|apply zlen_nonneg]). rewrite (LO _ ZS). rewrite softmax_meaning by assumption.
    unfold softmaxed. rewrite EL, HY. cbv zeta. apply tab_ext. intros k Hk. rewrite (Z.div_small k n) by lia. reflexivity.
Qed.
Lemma unsoft_result o ts out : is_softmax o = true -> importable o (map dims ts) -> result o ts out = softmaxed out (result (unsoft o) ts out).
Proof.
  intros HS HI. destruct o; try discriminate HS; destruct a; try discriminate HS.
  - destruct HI as (_ & _ & n & E & _). destruct (one_tensor _ _ E) as (x & ->). cbn [result unsoft pre activated]. f_equal. symmetry. etransitivity; [apply map_ext; intros v; reflexivity|apply map_id].
  - destruct HI as (_ & _ & _ & _ & _ & _ & _ & (H & W & C & E & _) & _). destruct (one_tensor _ _ E) as (x & ->). cbn [result unsoft pre activated]. f_equal. symmetry. etransitivity; [apply map_ext; intros v; reflexivity|apply map_id].
Qed.
Lemma unsoft_same o : is_softmax o = false -> unsoft o = o.
Proof. destruct o; try reflexivity; destruct a; try reflexivity; discriminate. Qed.

(** ** Positions of the layers. *)
Open Scope nat_scope.
Definition width (n : node) : nat := if is_softmax (n_op n) then 2 else 1.
Definition widths (ns : list node) : nat := list_sum (map width ns).
(** First layer created for the node that follows [before]. *)
Definition pos (before : list node) : nat := 1 + widths before.
Fixpoint loc_in (k : nat) (ns : list node) (nm : string) : nat :=
  match ns with [] => 0 | n :: r => if String.eqb (n_name n) nm then k + (width n - 1) else loc_in (k + width n) r nm end.
Definition loc (m : kmodel) (nm : string) : nat := if String.eqb (k_input m) nm then 0 else loc_in 1 (k_nodes m) nm.

Lemma width_pos n : 1 <= width n <= 2.
Proof. unfold width. destruct (is_softmax (n_op n)); lia. Qed.
Lemma widths_app a b : widths (a ++ b) = widths a + widths b.
Proof. unfold widths. rewrite map_app, list_sum_app. reflexivity. Qed.
Lemma widths_cons n b : widths (n :: b) = width n + widths b.
Proof. reflexivity. Qed.
Lemma widths_count ns : widths ns = length ns + ksoftmaxes (map link_node ns).
Proof.
  induction ns as [|n ns IH]; [reflexivity|]. rewrite widths_cons, IH. unfold ksoftmaxes. cbn [map filter link_node ksoftmax length]. unfold width.
  destruct (is_softmax (n_op n)); cbn [length]; lia.
Qed.
Lemma pos_snoc b n : pos (b ++ [n]) = pos b + width n.
Proof. unfold pos. rewrite widths_app. cbn [widths map list_sum fold_right]. unfold widths. cbn. lia. Qed.
Lemma loc_in_split before n after : forall k, ~ In (n_name n) (map n_name before) ->
  loc_in k (before ++ n :: after) (n_name n) = k + widths before + (width n - 1).
Proof.
  induction before as [|b before IH]; intros k NI; cbn [app loc_in].
  - rewrite String.eqb_refl. unfold widths. cbn. lia.
  - destruct (String.eqb_spec (n_name b) (n_name n)) as [E|NE]; [exfalso; apply NI; left; exact E|]. rewrite IH by (intros H; apply NI; right; exact H). rewrite widths_cons. lia.
Qed.
Lemma names_split m before n after : well_formed m -> k_nodes m = before ++ n :: after ->
  ~ In (n_name n) (k_input m :: map n_name before) /\ ~ In (n_name n) (map n_name after).
Proof.
  intros WF E. pose proof (wf_names _ WF) as ND. rewrite E, map_app in ND. cbn [map] in ND. change (k_input m :: map n_name before ++ n_name n :: map n_name after) with ((k_input m :: map n_name before) ++ n_name n :: map n_name after) in ND.
  pose proof (NoDup_remove_2 _ _ _ ND) as H. split; intros H1; apply H; apply in_or_app; auto.
Qed.
Lemma loc_node m before n after : well_formed m -> k_nodes m = before ++ n :: after -> loc m (n_name n) = pos before + (width n - 1).
Proof.
  intros WF E. destruct (names_split _ _ _ _ WF E) as (H & _). unfold loc. destruct (String.eqb_spec (k_input m) (n_name n)) as [EI|_]; [exfalso; apply H; left; exact EI|].
  rewrite E, loc_in_split by (intros H1; apply H; right; exact H1). unfold pos. lia.
Qed.
Lemma loc_input m : loc m (k_input m) = 0.
Proof. unfold loc. rewrite String.eqb_refl. reflexivity. Qed.
Lemma classify ns : forall i, i < widths ns -> exists before n after, ns = before ++ n :: after /\ (i = widths before \/ is_softmax (n_op n) = true /\ i = S (widths before)).
Proof.
  induction ns as [|n ns IH]; intros i Hi; [cbn in Hi; lia|]. rewrite widths_cons in Hi. destruct (Nat.lt_ge_cases i (width n)) as [H|H].
  - exists [], n, ns. split; [reflexivity|]. unfold width in H. cbn. destruct (is_softmax (n_op n)); [|left; lia]. destruct (Nat.eq_dec i 0); [left; lia|right; split; [reflexivity|lia]].
  - destruct (IH (i - width n) ltac:(lia)) as (b & n' & a & -> & HC). exists (n :: b), n', a. split; [reflexivity|]. rewrite widths_cons. destruct HC as [HC | (HS & HC)]; [left; lia|right; split; [exact HS|lia]].
Qed.

(** ** The imported layers. *)
Fixpoint softmax_last_only (ns : list node) : Prop :=
  match ns with [] | [_] => True | n :: r => is_softmax (n_op n) = false /\ softmax_last_only r end.
Definition all_importable (m : kmodel) (sh : string -> list Z) : Prop :=
  forall n, In n (k_nodes m) -> importable (n_op n) (map sh (n_inputs n)).

Section Model.
  Variable m : kmodel.
  Variable sh : string -> list Z.
  Hypothesis WF : well_formed m.
  Hypothesis SH : shaped m sh.
  Hypothesis PI : positive_dims (k_shape m).
  Hypothesis IM : all_importable m sh.
  Hypothesis SM : k_sequential m = false -> softmax_last_only (k_nodes m).

  Lemma in_nodes before n after : k_nodes m = before ++ n :: after -> In n (k_nodes m).
  Proof. intros ->. apply in_or_app. right. left. reflexivity. Qed.
  Lemma prefix_positive before : forall after, k_nodes m = before ++ after -> Forall (fun nm => positive_dims (sh nm)) (k_input m :: map n_name before).
  Proof.
    induction before as [|n before IH] using rev_ind; intros after E.
    - cbn. constructor; [|constructor]. rewrite (proj1 SH). exact PI.
    - rewrite <- app_assoc in E. specialize (IH _ E). cbn [app] in E. rewrite map_app. cbn [map]. rewrite app_comm_cons. apply Forall_app. split; [exact IH|]. constructor; [|constructor].
      pose proof (in_nodes _ _ _ E) as Hn.
      destruct (op_built SixLoops 0%R (fun _ => 0%R) (n_op n) (map sh (n_inputs n)) (sh (n_name n))) as (l & B).
      + apply Forall_forall. intros ds Hd. apply in_map_iff in Hd. destruct Hd as (nm & <- & Hnm). rewrite Forall_forall in IH. apply IH. apply (proj2 (wf_order _ WF _ _ _ E)). exact Hnm.
      + apply IM. exact Hn.
      + apply (proj2 SH). exact Hn.
      + exact (b_out _ _ _ _ _ _ _ B).
  Qed.
  Lemma node_built impl ninf q before n after : k_nodes m = before ++ n :: after ->
    Forall positive_dims (map sh (n_inputs n)) /\ exists l, built impl ninf q (n_op n) (map sh (n_inputs n)) (sh (n_name n)) l.
  Proof.
    intros E. pose proof (in_nodes _ _ _ E) as Hn. pose proof (prefix_positive before (n :: after) E) as P.
    assert (F : Forall positive_dims (map sh (n_inputs n))).
    { apply Forall_forall. intros ds Hd. apply in_map_iff in Hd. destruct Hd as (nm & <- & Hnm). rewrite Forall_forall in P. apply P. apply (proj2 (wf_order _ WF _ _ _ E)). exact Hnm. }
    split; [exact F|]. apply op_built; [exact F|apply IM; exact Hn|apply (proj2 SH); exact Hn].
  Qed.
  Lemma node_softmax before n after : k_nodes m = before ++ n :: after -> is_softmax (n_op n) = true ->
    exists k, (0 < k)%Z /\ (sh (n_name n) = [k] \/ sh (n_name n) = [1; 1; k]%Z).
  Proof.
    intros E HS. destruct (node_built SixLoops 0%R (fun _ => 0%R) _ _ _ E) as (F & _). pose proof (in_nodes _ _ _ E) as Hn.
    eapply softmax_shape; [exact F|apply IM; exact Hn|apply (proj2 SH); exact Hn|exact HS].
  Qed.
  Lemma not_skipped n : In n (k_nodes m) -> skipped (n_op n) = false.
  Proof. intros Hn. pose proof (IM n Hn) as HI. destruct (n_op n); try reflexivity; destruct HI. Qed.

  (** The layers created for a node. *)
  Definition softmax_layer (ds : list Z) : layer Rnum := mkLayer Rnum (KSoftmax Rnum 1 1 (size_of ds) 3) Activation.LinearAct.
  Lemma node_import impl before n after : k_nodes m = before ++ n :: after ->
    exists l, import_layer impl (n_op n) (map sh (n_inputs n)) (sh (n_name n)) = Some l /\
      import_op impl (n_op n) (map sh (n_inputs n)) (sh (n_name n)) = Some (l :: if is_softmax (n_op n) then [softmax_layer (sh (n_name n))] else []).
  Proof.
    intros E. destruct (node_built impl 0%R (fun _ => 0%R) _ _ _ E) as (_ & l & B). exists l. pose proof (b_import _ _ _ _ _ _ _ B) as IL. split; [exact IL|].
    unfold import_op. rewrite (not_skipped n (in_nodes _ _ _ E)), IL. cbn [bind]. destruct (is_softmax (n_op n)) eqn:HS; [|reflexivity].
    destruct (node_softmax _ _ _ E HS) as (k & Hk & HO).
    destruct (softmax_built 0%R (fun _ => 0%R) (sh (n_name n)) k (tab k (fun _ => 0%R)) Hk HO ltac:(apply zlen_tab; lia)) as (sl & E1 & E2 & _ & E3 & _).
    rewrite E1. cbn [bind]. unfold softmax_layer. rewrite E3, <- E2. reflexivity.
  Qed.

  Lemma shape_of_env env nm : (forall k ds, In (k, ds) env -> ds = sh k) -> In nm (map fst env) -> shape_of env nm = Some (sh nm).
  Proof.
    intros HE. induction env as [|[k ds] env IH]; intros HI; [destruct HI|]. cbn [shape_of]. destruct (String.eqb_spec nm k) as [->|NE].
    - rewrite (HE k ds (or_introl eq_refl)). reflexivity.
    - apply IH; [intros k' ds' H; apply HE; right; exact H|]. destruct HI as [HI|HI]; [cbn in HI; congruence|exact HI].
  Qed.
  Lemma shapes_env env nms : (forall k ds, In (k, ds) env -> ds = sh k) -> incl nms (map fst env) -> all_some (map (shape_of env) nms) = Some (map sh nms).
  Proof.
    intros HE HI. induction nms as [|nm nms IH]; [reflexivity|]. cbn [map all_some]. rewrite (shape_of_env env nm HE) by (apply HI; left; reflexivity). cbn [bind].
    rewrite IH by (intros a Ha; apply HI; right; exact Ha). reflexivity.
  Qed.
  Lemma import_nodes_ok impl after : forall before env, k_nodes m = before ++ after ->
    (forall k ds, In (k, ds) env -> ds = sh k) -> incl (k_input m :: map n_name before) (map fst env) ->
    exists ls, import_nodes impl env after = Some ls /\ length ls = widths after /\
      forall b n a, after = b ++ n :: a -> exists l, import_layer impl (n_op n) (map sh (n_inputs n)) (sh (n_name n)) = Some l /\
        nth_error ls (widths b) = Some l /\ (is_softmax (n_op n) = true -> nth_error ls (S (widths b)) = Some (softmax_layer (sh (n_name n)))).
  Proof.
    induction after as [|n after IH]; intros before env E HE HI.
    - exists []. split; [reflexivity|]. split; [reflexivity|]. intros b n a H. destruct b; discriminate.
    - cbn [import_nodes]. rewrite (shapes_env env (n_inputs n) HE) by (intros a Ha; apply HI; apply (proj2 (wf_order _ WF _ _ _ E)); exact Ha). cbn [bind].
      rewrite (proj2 SH n (in_nodes _ _ _ E)). cbn [bind]. destruct (node_import impl _ _ _ E) as (l & IL & IO). rewrite IO. cbn [bind].
      destruct (IH (before ++ [n]) ((n_name n, sh (n_name n)) :: env)) as (ls & EL & LL & HL).
      { rewrite <- app_assoc. exact E. }
      { intros k ds [H|H]; [injection H as <- <-; reflexivity|apply HE; exact H]. }
      { intros nm [H|H]; [cbn; right; apply HI; left; exact H|]. rewrite map_app in H. apply in_app_or in H. destruct H as [H|[H|[]]]; [cbn; right; apply HI; right; exact H|left; exact H]. }
      rewrite EL. cbn [bind]. eexists. split; [reflexivity|]. split.
      + rewrite app_length, LL, widths_cons. unfold width. destruct (is_softmax (n_op n)); reflexivity.
      + intros b n' a H. destruct b as [|n0 b]; cbn [app] in H; injection H as <- H.
        * exists l. split; [exact IL|]. split; [reflexivity|]. intros HS. rewrite HS. reflexivity.
        * destruct (HL b n' a H) as (l' & IL' & N1 & N2). exists l'. split; [exact IL'|]. rewrite widths_cons.
          assert (LS : length (l :: (if is_softmax (n_op n) then [softmax_layer (sh (n_name n))] else [])) = width n) by (unfold width; destruct (is_softmax (n_op n)); reflexivity).
          split.
          -- rewrite nth_error_app2 by (rewrite LS; lia). rewrite LS. replace (width n + widths b - width n) with (widths b) by lia. exact N1.
          -- intros HS. rewrite nth_error_app2 by (rewrite LS; lia). rewrite LS. replace (S (width n + widths b) - width n) with (S (widths b)) by lia. exact (N2 HS).
  Qed.

  (** ** The links. *)
  Definition links_ok (g : graph) : Prop :=
    linked g /\ acyclic g /\ dnn g = seq 0 (pos (k_nodes m)) /\ previous_layer g 0 = [] /\ (forall i, is_constant g i = false) /\
    (forall b n a, k_nodes m = b ++ n :: a -> previous_layer g (pos b) = map (loc m) (n_inputs n) /\
       (is_softmax (n_op n) = true -> previous_layer g (S (pos b)) = [pos b])).
  Lemma last_snoc {A} (l : list A) a d : last (l ++ [a]) d = a.
  Proof. induction l as [|b l IH]; [reflexivity|]. cbn [app]. destruct (l ++ [a]) eqn:E; [destruct l; discriminate|]. exact IH. Qed.
  Lemma skips_none : Forall (fun kl => kskip kl = false) (map link_node (k_nodes m)).
  Proof. apply Forall_forall. intros kl Hk. apply in_map_iff in Hk. destruct Hk as (n & <- & Hn). exact (not_skipped n Hn). Qed.
  Lemma sequential_links : k_sequential m = true -> exists st, load_keras true 0 (map link_node (k_nodes m)) = Some st /\ links_ok (keras_graph st).
  Proof.
    intros SQ. destruct (C46_keras_sequential 0 (map link_node (k_nodes m)) ltac:(lia) skips_none) as (st & E & D & L & A & P0 & P). cbn [skipn] in *.
    exists st. split; [exact E|]. rewrite map_length in D, P. assert (EW : 1 + length (k_nodes m) + ksoftmaxes (map link_node (k_nodes m)) = pos (k_nodes m)) by (unfold pos; rewrite widths_count; lia).
    rewrite EW in *. split; [exact L|]. split; [exact A|]. split; [exact D|]. split; [exact P0|]. split; [reflexivity|].
    intros b n a EQ. assert (HB : pos b + width n <= pos (k_nodes m)) by (rewrite EQ; unfold pos; rewrite widths_app, widths_cons; lia). pose proof (width_pos n). split.
    - rewrite P by (unfold pos in *; lia). rewrite (wf_chain _ WF SQ _ _ _ EQ). cbn [map]. f_equal.
      destruct b as [|b0 b] using rev_ind; [cbn; rewrite loc_input; reflexivity|]. clear IHb. rewrite map_app. cbn [map]. rewrite last_snoc.
      assert (EQ' : k_nodes m = b ++ b0 :: (n :: a)) by (rewrite EQ, <- app_assoc; reflexivity). rewrite (loc_node m b b0 (n :: a) WF EQ'), pos_snoc. pose proof (width_pos b0). lia.
    - intros HS. assert (W2 : width n = 2) by (unfold width; rewrite HS; reflexivity). rewrite P by lia. f_equal; lia.
  Qed.

  Lemma no_softmax_before b n a : k_sequential m = false -> k_nodes m = b ++ n :: a -> Forall (fun k => is_softmax (n_op k) = false) b.
  Proof.
    intros SQ E. specialize (SM SQ). rewrite E in SM. clear E. revert SM. induction b as [|k b IH]; intros H; [constructor|]. cbn [app] in H.
    destruct (b ++ n :: a) as [|x r] eqn:EB; [destruct b; discriminate|]. destruct H as (H1 & H2). constructor; [exact H1|]. apply IH. exact H2.
  Qed.
  Lemma plain_widths b : Forall (fun k => is_softmax (n_op k) = false) b -> widths b = length b.
  Proof. intros F. induction F as [|k b H F IH]; [reflexivity|]. rewrite widths_cons, IH. unfold width. rewrite H. reflexivity. Qed.
  Lemma nth_split_at {A} (l : list A) k a : nth_error l k = Some a -> exists b c, l = b ++ a :: c /\ length b = k.
  Proof. apply nth_error_split. Qed.
  Lemma functional_links : k_sequential m = false -> exists st,
    load_keras false 1 (mkKeras (k_input m) false false [] :: map link_node (k_nodes m)) = Some st /\ links_ok (keras_graph st).
  Proof.
    intros SQ. assert (EN : map kname (map link_node (k_nodes m)) = map n_name (k_nodes m)) by (rewrite map_map; reflexivity).
    assert (SPL : forall b kl a, map link_node (k_nodes m) = b ++ kl :: a -> exists b' n a', k_nodes m = b' ++ n :: a' /\ b = map link_node b' /\ kl = link_node n /\ a = map link_node a').
    { intros b kl a H. destruct (map_eq_app _ _ _ _ H) as (b' & r & E1 & E2 & E3). destruct r as [|n a']; [discriminate|]. cbn [map] in E3. injection E3 as <- <-. exists b', n, a'. auto. }
    destruct (C46_keras_functional (mkKeras (k_input m) false false []) (map link_node (k_nodes m))) as (st & E & L & A & D & P0 & P & Q).
    - cbn [map kname]. rewrite EN. exact (wf_names _ WF).
    - exact skips_none.
    - intros b kl a H HN. destruct (SPL _ _ _ H) as (b' & n & a' & EQ & -> & -> & ->). cbn [link_node ksoftmax].
      destruct a' as [|n1 a']; [exfalso; apply HN; reflexivity|]. assert (EQ' : k_nodes m = (b' ++ [n]) ++ n1 :: a') by (rewrite <- app_assoc; exact EQ).
      pose proof (no_softmax_before _ _ _ SQ EQ') as F. rewrite Forall_forall in F. apply F. apply in_or_app. right. left. reflexivity.
    - intros b kl a H nm Hnm. destruct (SPL _ _ _ H) as (b' & n & a' & EQ & -> & -> & ->). cbn [link_node kinputs] in Hnm.
      pose proof (proj2 (wf_order _ WF _ _ _ EQ) _ Hnm) as [HI|HI]; [eexists; split; [left; reflexivity|exact HI]|].
      apply in_map_iff in HI. destruct HI as (n' & <- & Hn'). exists (link_node n'). split; [right; apply in_map; exact Hn'|reflexivity].
    - exists st. split; [exact E|]. rewrite map_length in D. assert (EW : 1 + length (k_nodes m) + ksoftmaxes (map link_node (k_nodes m)) = pos (k_nodes m)) by (unfold pos; rewrite widths_count; lia).
      rewrite EW in D. split; [exact L|]. split; [exact A|]. split; [exact D|]. split; [exact P0|]. split; [reflexivity|].
      intros b n a EQ. pose proof (plain_widths _ (no_softmax_before _ _ _ SQ EQ)) as PW. unfold pos. rewrite PW.
      assert (EM : map link_node (k_nodes m) = map link_node b ++ link_node n :: map link_node a) by (rewrite EQ, map_app; reflexivity).
      split.
      + pose proof (P _ _ _ EM) as F2. rewrite map_length in F2. cbn [link_node kinputs] in F2.
        assert (IN : incl (n_inputs n) (k_input m :: map n_name b)) by exact (proj2 (wf_order _ WF _ _ _ EQ)).
        remember (previous_layer (keras_graph st) (1 + length b)) as ps eqn:EP. clear EP. induction F2 as [|nm p nms ps (kl & HN & HK) F2 IH]; [reflexivity|].
        cbn [map]. f_equal; [|apply IH; intros x Hx; apply IN; right; exact Hx].
        specialize (IN nm (or_introl eq_refl)). destruct p as [|p]; cbn [nth_error] in HN.
        * injection HN as <-. cbn [kname] in HK. subst nm. rewrite loc_input. reflexivity.
        * apply nth_error_split in HN. destruct HN as (b1 & a1 & E1 & L1). destruct (SPL _ _ _ E1) as (b' & n' & a' & EQ1 & -> & -> & ->). cbn [link_node kname] in HK. subst nm.
          rewrite (loc_node m b' n' a' WF EQ1). rewrite map_length in L1. subst p.
          (* n' is before n *)
          assert (HB : In n' b).
          { destruct IN as [H|H]; [exfalso; apply (proj1 (names_split _ _ _ _ WF EQ1)); left; exact H|]. apply in_map_iff in H. destruct H as (n2 & EN2 & H2).
            destruct (in_split _ _ H2) as (x & y & EB). assert (EQ2 : k_nodes m = x ++ n2 :: (y ++ n :: a)) by (rewrite EQ, EB, <- app_assoc; reflexivity).
            assert (n' = n2); [|subst; exact H2]. pose proof (in_nodes _ _ _ EQ2) as I2. rewrite EQ1 in I2. apply in_app_or in I2. destruct (names_split _ _ _ _ WF EQ1) as (N1 & N2).
            destruct I2 as [I2|[I2|I2]]; [exfalso; apply N1; right; rewrite <- EN2; apply in_map; exact I2|exact I2|exfalso; apply N2; rewrite <- EN2; apply in_map; exact I2]. }
          pose proof (no_softmax_before _ _ _ SQ EQ) as F. rewrite Forall_forall in F. specialize (F _ HB).
          assert (W1 : width n' = 1) by (unfold width; rewrite F; reflexivity).
          assert (PB : widths b' = length b').
          { destruct a' as [|n1 a']; [|apply plain_widths; eapply no_softmax_before; [exact SQ|exact EQ1]]. apply plain_widths. eapply no_softmax_before; [exact SQ|exact EQ1]. }
          unfold pos. rewrite PB, W1. lia.
      + intros HS. destruct a as [|n1 a].
        * apply (Q (map link_node b) (link_node n)) in HS; [rewrite map_length in HS; exact HS|exact EM].
        * exfalso. assert (EQ' : k_nodes m = (b ++ [n]) ++ n1 :: a) by (rewrite <- app_assoc; exact EQ).
          pose proof (no_softmax_before _ _ _ SQ EQ') as F. rewrite Forall_forall in F. rewrite (F n) in HS; [discriminate|]. apply in_or_app. right. left. reflexivity.
  Qed.
End Model.
