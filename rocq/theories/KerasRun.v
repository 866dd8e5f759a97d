(** * Values computed by an imported Keras model (used by C69). *)
From Coq Require Import String.
From Coq Require Import ZArith List Lia Bool Reals Lra QArith Permutation.
Import ListNotations.
From Verif Require Import CMem Tensor Num RealInst Padding Conv Pooling Pad Reduce Movement MovementProofs Linear Graph GraphSpec LayerKinds Net Import ImportOtherProofs PropertiesImport PropertiesGraph.
From Verif Require Activation Broadcast.
From Verif Require Import KerasSpec Keras KerasProofs KerasOps KerasOps2 KerasOps3 KerasModel.
Open Scope list_scope.
Open Scope nat_scope.

Lemma soft_dec n : {is_softmax (n_op n) = true} + {is_softmax (n_op n) = false}.
Proof. destruct (is_softmax (n_op n)); auto. Qed.
Section Run.
  Variable m : kmodel.
  Variable sh : string -> list Z.
  Hypothesis WF : well_formed m.
  Hypothesis SH : shaped m sh.
  Hypothesis PI : positive_dims (k_shape m).
  Hypothesis IM : all_importable m sh.
  Hypothesis SM : k_sequential m = false -> softmax_last_only (k_nodes m).

  Record imported (impl : conv_impl) (md : model Rnum) : Prop := {
    i_links : links_ok m (md_graph Rnum md);
    i_last : md_last Rnum md = true;
    i_input : md_layer Rnum md 0 = import_input (k_shape m);
    i_nodes : forall b n a, k_nodes m = b ++ n :: a -> exists l,
      import_layer impl (n_op n) (map sh (n_inputs n)) (sh (n_name n)) = Some l /\ md_layer Rnum md (pos b) = l /\
      (is_softmax (n_op n) = true -> md_layer Rnum md (S (pos b)) = softmax_layer (sh (n_name n)))
  }.
  Lemma load_ok impl : exists md, load_model impl m = Some md /\ imported impl md.
  Proof.
    destruct (import_nodes_ok m sh WF SH PI IM impl (k_nodes m) [] [(k_input m, k_shape m)] eq_refl) as (ls & EL & LL & HL).
    { intros k ds [H|[]]. injection H as <- <-. symmetry. apply SH. }
    { intros nm [H|[]]. left. exact H. }
    assert (HLK : exists st, (if k_sequential m then load_keras true 0 (map link_node (k_nodes m))
         else load_keras false 1 (mkKeras (k_input m) false false [] :: map link_node (k_nodes m))) = Some st /\ links_ok m (keras_graph st)).
    { destruct (k_sequential m) eqn:SQ; [exact (sequential_links m sh WF IM SQ)|exact (functional_links m sh WF IM (fun _ => SM eq_refl) SQ)]. }
    destruct HLK as (st & ES & LK). unfold load_model. rewrite ES. cbn [bind]. rewrite EL. cbn [bind]. eexists. split; [reflexivity|].
    constructor; cbn [md_graph md_last md_layer]; [exact LK|reflexivity|reflexivity|].
    intros b n a E. destruct (HL b n a E) as (l & IL & N1 & N2). exists l. split; [exact IL|]. split.
    - change (pos b) with (S (widths b)). cbn [nth]. apply nth_error_nth. exact N1.
    - intros HS. change (pos b) with (S (widths b)). cbn [nth]. apply nth_error_nth. exact (N2 HS).
  Qed.

  Variable impl : conv_impl.
  Variable md : model Rnum.
  Hypothesis ID : imported impl md.
  Let g := md_graph Rnum md.

  Lemma pos_in b n a : k_nodes m = b ++ n :: a -> In (pos b) (dnn g) /\ (is_softmax (n_op n) = true -> In (S (pos b)) (dnn g)).
  Proof.
    intros E. destruct (i_links _ _ ID) as (_ & _ & D & _). fold g in D. rewrite D. rewrite E. unfold pos. rewrite widths_app, widths_cons. pose proof (width_pos n).
    split; [apply in_seq; lia|]. intros HS. unfold width. rewrite HS. apply in_seq. lia.
  Qed.
  Lemma name_cases nm : In nm (k_input m :: map n_name (k_nodes m)) -> nm = k_input m \/ exists b n a, k_nodes m = b ++ n :: a /\ nm = n_name n.
  Proof.
    intros [<-|H]; [left; reflexivity|]. apply in_map_iff in H. destruct H as (n & <- & Hn). right. destruct (in_split _ _ Hn) as (b & a & E). exists b, n, a. auto.
  Qed.
  Lemma dnn_cases i : In i (dnn g) -> i = 0 \/ exists b n a, k_nodes m = b ++ n :: a /\ (i = pos b \/ is_softmax (n_op n) = true /\ i = S (pos b)).
  Proof.
    destruct (i_links _ _ ID) as (_ & _ & D & _). fold g in D. rewrite D. intros H. apply in_seq in H. destruct i as [|i]; [left; reflexivity|right].
    unfold pos in H. destruct (classify (k_nodes m) i ltac:(lia)) as (b & n & a & E & HC). exists b, n, a. split; [exact E|]. unfold pos. destruct HC as [-> | (HS & ->)]; auto.
  Qed.
  Lemma prev_nonempty i : In i (dnn g) -> i <> 0 -> previous_layer g i <> [].
  Proof.
    intros Hi H0. destruct (i_links _ _ ID) as (_ & _ & _ & _ & _ & P). destruct (dnn_cases i Hi) as [->|(b & n & a & E & [-> | (HS & ->)])]; [congruence| |];
    destruct (P b n a E) as (P1 & P2).
    - unfold g. rewrite P1. intros H. apply (proj1 (wf_order _ WF _ _ _ E)). destruct (n_inputs n); [reflexivity|discriminate].
    - unfold g. rewrite (P2 HS). discriminate.
  Qed.
  (** Every layer but the one of the output is read. *)
  Lemma read_by i : In i (dnn g) -> i <> loc m (k_output m) -> exists s, In s (dnn g) /\ In i (previous_layer g s).
  Proof.
    intros Hi HN. destruct (i_links _ _ ID) as (_ & _ & _ & _ & _ & P).
    assert (RD : forall nm, In nm (k_input m :: map n_name (k_nodes m)) -> loc m nm <> loc m (k_output m) -> exists s, In s (dnn g) /\ In (loc m nm) (previous_layer g s)).
    { intros nm Hnm NE. destruct (wf_read _ WF nm Hnm ltac:(congruence)) as (n & Hn & Hr). destruct (in_split _ _ Hn) as (b & a & E). exists (pos b). split; [apply (pos_in _ _ _ E)|].
      unfold g. rewrite (proj1 (P b n a E)). apply in_map. exact Hr. }
    destruct (dnn_cases i Hi) as [->|(b & n & a & E & HC)].
    - rewrite <- (loc_input m). apply RD; [left; reflexivity|rewrite loc_input; exact HN].
    - pose proof (loc_node m b n a WF E) as EL. destruct (is_softmax (n_op n)) eqn:HS.
      + destruct HC as [-> | (_ & ->)].
        * exists (S (pos b)). split; [apply (pos_in _ _ _ E); exact HS|]. unfold g. rewrite (proj2 (P b n a E) HS). left. reflexivity.
        * assert (EP : S (pos b) = loc m (n_name n)) by (rewrite EL; unfold width; rewrite HS; lia). rewrite EP in *. apply RD; [right; apply in_map; rewrite E; apply in_or_app; right; left; reflexivity|exact HN].
      + destruct HC as [-> | (H & _)]; [|discriminate]. assert (EP : pos b = loc m (n_name n)) by (rewrite EL; unfold width; rewrite HS; lia). rewrite EP in *.
        apply RD; [right; apply in_map; rewrite E; apply in_or_app; right; left; reflexivity|exact HN].
  Qed.
  Lemma scheduled : exists s, tri_topo g = Some s /\ hd 0 (order s) = 0 /\ last (order s) 0 = loc m (k_output m) /\ Permutation (dnn g) (order s).
  Proof.
    destruct (i_links _ _ ID) as (L & A & D & P0 & C & P). fold g in L, A, D, P0, C, P.
    assert (I0 : In 0 (dnn g)) by (rewrite D; apply in_seq; unfold pos; lia).
    destruct (C01_layers_after_their_producers g L A) as (s & ES & PM & T).
    - intros c _ H. rewrite C in H. discriminate.
    - intros i Hi HN. destruct (previous_layer g i) as [|p ps]; [congruence|]. exists p. split; [left; reflexivity|apply C].
    - exists 0. split; [exact I0|apply C].
    - exists s. split; [exact ES|]. assert (I0' : In 0 (order s)) by (eapply Permutation_in; eassumption).
      assert (ND : NoDup (order s)) by (eapply Permutation_NoDup; [exact PM|apply L]).
      split; [|split; [|exact PM]].
      + destruct (order s) as [|k r] eqn:EO; [destruct I0'|]. cbn [hd]. destruct (Nat.eq_dec k 0) as [|NE]; [assumption|exfalso].
        assert (Hk : In k (dnn g)) by (eapply Permutation_in; [apply Permutation_sym; exact PM|left; reflexivity]).
        destruct (previous_layer g k) as [|p ps] eqn:EP; [exact (prev_nonempty k Hk NE EP)|]. destruct (T [] k r eq_refl p). rewrite EP. left. reflexivity.
      + destruct (Nat.eq_dec (last (order s) 0) (loc m (k_output m))) as [|NE]; [assumption|exfalso].
        assert (NN : order s <> []) by (intros E; rewrite E in I0'; destruct I0'). pose proof (app_removelast_last 0 NN) as EL. remember (last (order s) 0) as z eqn:EZ.
        assert (Hz : In z (dnn g)). { eapply Permutation_in; [apply Permutation_sym; exact PM|]. rewrite EL. apply in_or_app. right. left. reflexivity. }
        destruct (read_by z Hz NE) as (k & Hk & Hr). assert (Hk' : In k (order s)) by (eapply Permutation_in; eassumption). destruct (in_split _ _ Hk') as (l1 & l2 & EO).
        pose proof (T l1 k l2 EO z Hr) as H1.
        assert (Hzl : In z (k :: l2)).
        { rewrite EO in EZ. rewrite EZ. clear. induction l1 as [|x l1 IH]; [|cbn [app]; destruct (l1 ++ k :: l2) eqn:E; [destruct l1; discriminate|exact IH]].
          cbn [app]. generalize k. induction l2 as [|y l2 IH]; intros k'; [left; reflexivity|]. right. exact (IH y). }
        rewrite EO in ND. clear - ND H1 Hzl. induction l1 as [|x l1 IH]; [destruct H1|]. cbn [app] in ND. inversion ND as [|? ? NI ND']; subst.
        destruct H1 as [-> |H1]; [apply NI; apply in_or_app; right; exact Hzl|exact (IH ND' H1)].
  Qed.

  (** ** Values. *)
  Variable ninf : R.
  Variable q : Q -> R.
  Lemma import_layer_built b n a l : k_nodes m = b ++ n :: a ->
    import_layer impl (n_op n) (map sh (n_inputs n)) (sh (n_name n)) = Some l -> built impl ninf q (n_op n) (map sh (n_inputs n)) (sh (n_name n)) l.
  Proof.
    intros E IL. destruct (node_built m sh WF SH PI IM impl ninf q _ _ _ E) as (_ & l' & B). pose proof (b_import _ _ _ _ _ _ _ B) as IL'. rewrite IL in IL'. injection IL' as <-. exact B.
  Qed.
  (** The tensors of a run have the dimensions of the model. *)
  Lemma run_sized x env : runs m x env -> zlen x = size_of (k_shape m) -> forall before after, k_nodes m = before ++ after ->
    Forall (fun nm => dims (env nm) = sh nm /\ sized (env nm)) (k_input m :: map n_name before).
  Proof.
    intros (R0 & RN) HX before. induction before as [|n before IH] using rev_ind; intros after E.
    - constructor; [|constructor]. rewrite R0. cbn [dims]. split; [symmetry; apply SH|]. split; [exact PI|exact HX].
    - rewrite <- app_assoc in E. specialize (IH _ E). cbn [app] in E. rewrite map_app. cbn [map]. rewrite app_comm_cons. apply Forall_app. split; [exact IH|]. constructor; [|constructor].
      pose proof (in_nodes m _ _ _ E) as Hn. pose proof (RN n Hn) as HA. rewrite Forall_forall in IH.
      assert (ED : map dims (map env (n_inputs n)) = map sh (n_inputs n)).
      { rewrite map_map. apply map_ext_in. intros nm Hnm. apply IH. apply (proj2 (wf_order _ WF _ _ _ E)). exact Hnm. }
      assert (ES : Forall sized (map env (n_inputs n))).
      { apply Forall_forall. intros t Ht. apply in_map_iff in Ht. destruct Ht as (nm & <- & Hnm). apply IH. apply (proj2 (wf_order _ WF _ _ _ E)). exact Hnm. }
      unfold apply in HA. rewrite ED, (proj2 SH n Hn) in HA. cbn [bind] in HA. injection HA as HA. rewrite <- HA. cbn [dims]. split; [reflexivity|].
      destruct (node_built m sh WF SH PI IM impl ninf q _ _ _ E) as (_ & l & B). split; [exact (b_out _ _ _ _ _ _ _ B)|]. cbn [dims vals]. apply (b_sized _ _ _ _ _ _ _ B); assumption.
  Qed.
  Lemma run_values s x env val : hd 0 (order s) = 0 -> zlen x = size_of (k_shape m) -> runs m x env ->
    evaluates (documented_net Rnum ninf q md s) x val ->
    forall before after, k_nodes m = before ++ after -> Forall (fun nm => val (loc m nm) = lay (env nm)) (k_input m :: map n_name before).
  Proof.
    intros H0 HX RU EV before. destruct (i_links _ _ ID) as (_ & _ & D & P0 & _ & P). pose proof RU as (R0 & RN).
    induction before as [|n before IH] using rev_ind; intros after E.
    - constructor; [|constructor]. rewrite loc_input, R0. assert (I0 : In 0 (dnn g)) by (unfold g; rewrite D; apply in_seq; unfold pos; lia).
      rewrite (EV 0 I0). cbn [documented_net net_with net_graph forward pre]. unfold documented_net, net_with. cbn [net_graph forward pre]. rewrite P0.
      unfold md_pre. rewrite H0. unfold lk. rewrite (i_input _ _ ID), (i_last _ _ ID). unfold import_input, lay, layout. cbn [dims vals lkind].
      destruct (k_shape m) as [|a [|b [|c [|d r]]]]; reflexivity.
    - rewrite <- app_assoc in E. specialize (IH _ E). cbn [app] in E. rewrite map_app. cbn [map]. rewrite app_comm_cons. apply Forall_app. split; [exact IH|]. constructor; [|constructor].
      pose proof (in_nodes m _ _ _ E) as Hn. pose proof (run_sized x env RU HX before (n :: after) E) as SZ. rewrite Forall_forall in IH, SZ.
      pose proof (proj2 (wf_order _ WF _ _ _ E)) as INC. pose proof (proj1 (wf_order _ WF _ _ _ E)) as NEI.
      set (ts := map env (n_inputs n)).
      assert (ED : map dims ts = map sh (n_inputs n)).
      { unfold ts. rewrite map_map. apply map_ext_in. intros nm Hnm. apply SZ. apply INC. exact Hnm. }
      assert (ES : Forall sized ts).
      { apply Forall_forall. intros t Ht. apply in_map_iff in Ht. destruct Ht as (nm & <- & Hnm). apply SZ. apply INC. exact Hnm. }
      pose proof (RN n Hn) as HA. unfold apply in HA. fold ts in HA. rewrite ED, (proj2 SH n Hn) in HA. cbn [bind] in HA. injection HA as HA.
      destruct (i_nodes _ _ ID before n after E) as (l & IL & ML & MS). pose proof (import_layer_built _ _ _ _ E IL) as B. destruct (P before n after E) as (P1 & P2).
      assert (V1 : val (pos before) = layout (sh (n_name n)) (result (unsoft (n_op n)) ts (sh (n_name n)))).
      { rewrite (EV (pos before) (proj1 (pos_in _ _ _ E))). unfold documented_net, net_with. cbn [net_graph forward pre]. rewrite P1, ML.
        rewrite <- (b_meaning _ _ _ _ _ _ _ B ts ED ES). f_equal.
        assert (EM : map val (map (loc m) (n_inputs n)) = map lay ts).
        { unfold ts. rewrite !map_map. apply map_ext_in. intros nm Hnm. apply IH. apply INC. exact Hnm. }
        rewrite <- EM. destruct (n_inputs n) as [|i0 ir]; [congruence|reflexivity]. }
      rewrite (loc_node m before n after WF E). rewrite <- HA. unfold lay. cbn [dims vals]. unfold width. destruct (soft_dec n) as [HS|HS]; rewrite ?HS.
      + replace (pos before + (2 - 1)) with (S (pos before)) by lia. rewrite (EV (S (pos before)) (proj2 (pos_in _ _ _ E) HS)). unfold documented_net, net_with. cbn [net_graph forward pre].
        rewrite (P2 HS), (MS HS). cbn [map]. rewrite V1.
        destruct (node_softmax m sh WF SH PI IM _ _ _ E HS) as (k & Hk & HO). destruct (b_sized _ _ _ _ _ _ _ B ts ED ES) as (_ & ZU).
        assert (EK : size_of (sh (n_name n)) = k) by (destruct HO as [-> | ->]; unfold size_of; cbn [fold_right]; lia). rewrite EK in ZU.
        destruct (softmax_built ninf q (sh (n_name n)) k _ Hk HO ZU) as (sl & _ & E2 & E3 & _). unfold softmax_layer. rewrite EK. rewrite E2 in E3. etransitivity; [exact E3|].
        f_equal. symmetry. apply unsoft_result; [exact HS|]. rewrite ED. apply IM. exact Hn.
      + replace (pos before + (1 - 1)) with (pos before) by lia. rewrite V1, (unsoft_same _ HS). reflexivity.
  Qed.
  Lemma output_value s x env val : hd 0 (order s) = 0 -> last (order s) 0 = loc m (k_output m) -> zlen x = size_of (k_shape m) -> runs m x env ->
    evaluates (documented_net Rnum ninf q md s) x val -> md_post Rnum md s (val (last (order s) 0)) = vals (env (k_output m)).
  Proof.
    intros H0 HL HX RU EV. pose proof (run_values s x env val H0 HX RU EV (k_nodes m) [] ltac:(rewrite app_nil_r; reflexivity)) as F. rewrite Forall_forall in F.
    pose proof (run_sized x env RU HX (k_nodes m) [] ltac:(rewrite app_nil_r; reflexivity)) as SZ. rewrite Forall_forall in SZ.
    assert (NN : k_nodes m <> []) by exact (wf_some _ WF). pose proof (app_removelast_last (mkNode (k_input m) Dropout []) NN) as EL.
    set (b := removelast (k_nodes m)) in *. set (n := last (k_nodes m) (mkNode (k_input m) Dropout [])) in *.
    assert (EO : k_output m = n_name n) by reflexivity. assert (HI : In (k_output m) (k_input m :: map n_name (k_nodes m))).
    { right. rewrite EO. apply in_map. rewrite EL. apply in_or_app. right. left. reflexivity. }
    rewrite HL, (F _ HI). destruct (SZ _ HI) as (ED & SZ1 & SZ2). unfold md_post. rewrite HL, EO, (loc_node m b n [] WF EL) in *. unfold lk.
    destruct (i_nodes _ _ ID b n [] EL) as (l & IL & ML & MS). pose proof (import_layer_built _ _ _ _ EL IL) as B. rewrite (i_last _ _ ID). unfold lay. rewrite ED in *.
    unfold width. destruct (soft_dec n) as [HS|HS]; rewrite ?HS.
    - replace (pos b + (2 - 1)) with (S (pos b)) by lia. rewrite (MS HS). destruct (node_softmax m sh WF SH PI IM _ _ _ EL HS) as (k & Hk & HO). cbn [softmax_layer lkind out_channels].
      assert (EK : size_of (sh (n_name n)) = k) by (destruct HO as [-> | ->]; unfold size_of; cbn [fold_right]; lia). rewrite EK in *.
      assert (One : one_dimension 1 1 k = true).
      { unfold one_dimension. cbn [existsb]. replace (1 * 1 * k)%Z with k by lia. rewrite Z.eqb_refl. destruct (k =? 1)%Z; reflexivity. }
      rewrite One. destruct HO as [-> | ->]; [reflexivity|]. apply layout_row; assumption.
    - replace (pos b + (1 - 1)) with (pos b) by lia. rewrite ML, (b_channels _ _ _ _ _ _ _ B).
      destruct (sh (n_name n)) as [|H [|W [|C [|X r]]]]; try reflexivity. cbn [layout]. inversion SZ1 as [|? ? Q1 SZ1']; inversion SZ1' as [|? ? Q2 SZ1'']; inversion SZ1''; subst.
      apply to_last_to_first; try lia. etransitivity; [exact SZ2|]. unfold size_of. cbn [fold_right]. lia.
  Qed.

  (** ** The generated program. *)
  Hypothesis SIX : impl = SixLoops.
  Hypothesis GEN : forall n, In n (k_nodes m) -> generable (n_op n) (map sh (n_inputs n)).
  Hypothesis NR : forall n, In n (k_nodes m) -> NoDup (n_inputs n).
  Hypothesis FL : forall n n' fmt nm, In n (k_nodes m) -> n_op n = Flatten fmt -> In nm (n_inputs n) -> In n' (k_nodes m) -> In nm (n_inputs n') -> n' = n.

  Lemma loc_inj nm nm' : In nm (k_input m :: map n_name (k_nodes m)) -> In nm' (k_input m :: map n_name (k_nodes m)) -> loc m nm = loc m nm' -> nm = nm'.
  Proof.
    intros H H' E. destruct (name_cases _ H) as [->|(b & n & a & EN & ->)], (name_cases _ H') as [->|(b' & n' & a' & EN' & ->)].
    - reflexivity.
    - rewrite loc_input, (loc_node m _ _ _ WF EN') in E. unfold pos in E. lia.
    - rewrite loc_input, (loc_node m _ _ _ WF EN) in E. unfold pos in E. lia.
    - rewrite (loc_node m _ _ _ WF EN), (loc_node m _ _ _ WF EN') in E. unfold pos in E. pose proof (width_pos n). pose proof (width_pos n').
      assert (EE : b ++ n :: a = b' ++ n' :: a') by congruence. clear EN EN' H H'. revert b' EE E.
      induction b as [|x b IH]; intros [|y b'] EE E; cbn [app] in EE.
      + injection EE as -> _. reflexivity.
      + injection EE as -> _. rewrite widths_cons in E. cbn in E. pose proof (width_pos y). lia.
      + injection EE as -> _. rewrite widths_cons in E. cbn in E. pose proof (width_pos n'). lia.
      + injection EE as -> EE. rewrite !widths_cons in E. apply (IH b' EE). lia.
  Qed.
  Lemma inputs_names b n a nm : k_nodes m = b ++ n :: a -> In nm (n_inputs n) -> In nm (k_input m :: map n_name (k_nodes m)).
  Proof.
    intros E H. apply (proj2 (wf_order _ WF _ _ _ E)) in H. destruct H as [H|H]; [left; exact H|right]. rewrite E, map_app. apply in_or_app. left. exact H.
  Qed.
  Lemma nodup_locs b n a : k_nodes m = b ++ n :: a -> NoDup (map (loc m) (n_inputs n)).
  Proof.
    intros E. pose proof (NR n (in_nodes m _ _ _ E)) as ND. assert (IN : forall nm, In nm (n_inputs n) -> In nm (k_input m :: map n_name (k_nodes m))) by (intros nm; eapply inputs_names; exact E).
    induction ND as [|x l NI ND IH]; [constructor|]. cbn [map]. constructor; [|apply IH; intros; apply IN; right; assumption].
    intros H. apply in_map_iff in H. destruct H as (y & EY & Hy). apply NI. rewrite (loc_inj x y); [exact Hy|apply IN; left; reflexivity|apply IN; right; exact Hy|symmetry; exact EY].
  Qed.
  Lemma size_loc nm : In nm (k_input m :: map n_name (k_nodes m)) -> md_size Rnum md (loc m nm) = size_of (sh nm).
  Proof.
    intros H. unfold md_size, lk. destruct (name_cases _ H) as [->|(b & n & a & E & ->)].
    - rewrite loc_input, (i_input _ _ ID), (proj1 SH). unfold import_input. cbn [lkind]. destruct (k_shape m) as [|x [|y [|z [|w r]]]]; try reflexivity. cbn [moved out_size]. unfold size_of. cbn [fold_right]. lia.
    - rewrite (loc_node m _ _ _ WF E). destruct (i_nodes _ _ ID b n a E) as (l & IL & ML & MS). pose proof (import_layer_built _ _ _ _ E IL) as B. unfold width. destruct (soft_dec n) as [HS|HS]; rewrite ?HS.
      + replace (pos b + (2 - 1)) with (S (pos b)) by lia. rewrite (MS HS). cbn [softmax_layer lkind out_size]. lia.
      + replace (pos b + (1 - 1)) with (pos b) by lia. rewrite ML. exact (b_size _ _ _ _ _ _ _ B).
  Qed.
  Lemma only_one (l : list nat) (a : nat) : count_occ Nat.eq_dec l a = 1 -> (forall x, In x l -> x = a) -> l = [a].
  Proof.
    intros HC HA. destruct l as [|x l]; [discriminate|]. assert (x = a) by (apply HA; left; reflexivity). subst x. cbn [count_occ] in HC. destruct (Nat.eq_dec a a); [|congruence].
    destruct l as [|y l]; [reflexivity|]. assert (y = a) by (apply HA; right; left; reflexivity). subst y. cbn [count_occ] in HC. destruct (Nat.eq_dec a a); [lia|congruence].
  Qed.
  Lemma pos_inj b n a b' n' a' : k_nodes m = b ++ n :: a -> k_nodes m = b' ++ n' :: a' -> pos b = pos b' -> n = n'.
  Proof.
    intros E E' EP. assert (EE : b ++ n :: a = b' ++ n' :: a') by congruence. unfold pos in EP. clear E E'. revert b' EE EP.
    induction b as [|x b IH]; intros [|y b'] EE EP; cbn [app] in EE.
    - injection EE as -> _. reflexivity.
    - rewrite widths_cons in EP. cbn in EP. pose proof (width_pos y). lia.
    - rewrite widths_cons in EP. cbn in EP. pose proof (width_pos x). lia.
    - injection EE as -> EE. rewrite !widths_cons in EP. apply (IH b' EE). lia.
  Qed.
  Lemma keras_supported : supported Rnum md 0.
  Proof.
    pose proof ID as ID'. destruct (i_links _ _ ID) as (L & A & D & P0 & C & P). fold g in L, A, D, P0, C, P.
    assert (I0 : In 0 (dnn g)) by (rewrite D; apply in_seq; unfold pos; lia).
    assert (KC : forall i, In i (dnn g) -> i <> 0 -> match lk Rnum md i with KInput4 _ _ _ _ | KInput _ _ | KConstant _ _ => False | _ => True end).
    { intros i Hi N0. destruct (dnn_cases i Hi) as [->|(b & n & a & E & HC)]; [congruence|]. destruct (i_nodes _ _ ID b n a E) as (l & IL & ML & MS). pose proof (import_layer_built _ _ _ _ E IL) as B.
      unfold lk. destruct HC as [-> | (HS & ->)]; [rewrite ML; pose proof (b_kind _ _ _ _ _ _ _ B) as K; destruct (lkind Rnum l); try exact I; exact K|rewrite (MS HS); exact I]. }
    constructor; fold g; try assumption.
    - intros i Hi. destruct (Nat.eq_dec i 0) as [->|N0]; [rewrite P0; constructor|]. destruct (dnn_cases i Hi) as [->|(b & n & a & E & HC)]; [congruence|].
      destruct (P b n a E) as (P1 & P2). destruct HC as [-> | (HS & ->)]; [rewrite P1; eapply nodup_locs; exact E|rewrite (P2 HS); repeat constructor; intros []].
    - intros i Hi. rewrite C. split; [discriminate|]. intros (w & H). exfalso. destruct (Nat.eq_dec i 0) as [->|N0].
      + unfold lk in H. rewrite (i_input _ _ ID) in H. unfold import_input in H. cbn [lkind] in H. destruct (moved (k_shape m)) as [|? [|? [|? [|? ?]]]]; discriminate.
      + pose proof (KC i Hi N0) as K. rewrite H in K. exact K.
    - intros i _ H. rewrite C in H. discriminate.
    - split; [rewrite D; reflexivity|]. split; [apply C|]. split; [exact P0|]. intros i Hi N0 _. pose proof (prev_nonempty i Hi N0) as NE. destruct (previous_layer g i) as [|p ps]; [congruence|]. exists p. split; [left; reflexivity|apply C].
    - unfold lk. rewrite (i_input _ _ ID). unfold import_input. cbn [lkind]. pose proof PI as PI'. destruct (k_shape m) as [|x [|y [|z [|w r]]]]; try (right; eexists; reflexivity).
      left. cbn [moved]. exists z, x, y. split; [reflexivity|]. inversion PI' as [|? ? Q1 PI1]; inversion PI1 as [|? ? Q2 PI2]; inversion PI2; subst. lia.
    - intros i Hi HP. destruct (dnn_cases i Hi) as [->|(b & n & a & E & HC)]; [rewrite P0 in HP; congruence|]. destruct (P b n a E) as (P1 & P2).
      destruct (i_nodes _ _ ID b n a E) as (l & IL & ML & MS). pose proof (import_layer_built _ _ _ _ E IL) as B. destruct HC as [-> | (HS & ->)].
      + rewrite ML, P1. assert (EM : map (md_size Rnum md) (map (loc m) (n_inputs n)) = map size_of (map sh (n_inputs n))).
        { rewrite !map_map. apply map_ext_in. intros nm Hnm. apply size_loc. eapply inputs_names; eassumption. }
        rewrite EM. apply (b_accepts _ _ _ _ _ _ _ B SIX). apply GEN. eapply in_nodes. exact E.
      + rewrite (MS HS), (P2 HS). cbn [map]. assert (ES : md_size Rnum md (pos b) = size_of (sh (n_name n))) by (unfold md_size, lk; rewrite ML; exact (b_size _ _ _ _ _ _ _ B)). rewrite ES.
        destruct (node_softmax m sh WF SH PI IM _ _ _ E HS) as (k & Hk & HO). assert (EK : size_of (sh (n_name n)) = k) by (destruct HO as [-> | ->]; unfold size_of; cbn [fold_right]; lia).
        split; [exact linear_ok|]. cbn [softmax_layer lkind lact]. rewrite EK. split; [f_equal; lia|]. repeat (split; [lia|]). reflexivity.
    - intros i p cl C0 H0 W0 Hi HK HP. destruct (dnn_cases i Hi) as [->|(b & n & a & E & HC)]; [rewrite P0 in HP; discriminate|]. destruct (P b n a E) as (P1 & P2).
      destruct (i_nodes _ _ ID b n a E) as (l & IL & ML & MS). pose proof (import_layer_built _ _ _ _ E IL) as B. destruct HC as [-> | (HS & ->)].
      2: { exfalso. unfold lk in HK. rewrite (MS HS) in HK. discriminate. }
      unfold lk in HK. rewrite ML in HK. pose proof (b_kind _ _ _ _ _ _ _ B) as K. rewrite HK in K. destruct K as (fmt & EF).
      rewrite P1 in HP. destruct (n_inputs n) as [|nm [|? ?]] eqn:EI; try discriminate. cbn [map] in HP. injection HP as <-.
      assert (HNM : In nm (k_input m :: map n_name (k_nodes m))) by (eapply inputs_names; [exact E|rewrite EI; left; reflexivity]).
      assert (HP : In (loc m nm) (dnn g)).
      { apply (links_closed _ L (pos b)); [exact Hi|]. right. rewrite P1. left. reflexivity. }
      assert (RD : forall s, In s (dnn g) -> In (loc m nm) (previous_layer g s) -> s = pos b).
      { intros s Hs Hr. destruct (dnn_cases s Hs) as [->|(b' & n' & a' & E' & HC')]; [rewrite P0 in Hr; destruct Hr|]. destruct (P b' n' a' E') as (P1' & P2'). destruct HC' as [-> | (HS' & ->)].
        - rewrite P1' in Hr. apply in_map_iff in Hr. destruct Hr as (nm' & EL & Hnm'). assert (nm' = nm) by (apply loc_inj; [eapply inputs_names; eassumption|exact HNM|exact EL]). subst nm'.
          assert (n' = n). { eapply FL with (nm := nm) (fmt := fmt); [eapply in_nodes; exact E|exact EF|rewrite EI; left; reflexivity|eapply in_nodes; exact E'|exact Hnm']. }
          subst n'. pose proof (loc_node m _ _ _ WF E) as L1. rewrite (loc_node m _ _ _ WF E') in L1. lia.
        - exfalso. rewrite (P2' HS') in Hr. destruct Hr as [Hr|[]].
          destruct (name_cases _ HNM) as [->|(b2 & n2 & a2 & E2 & ->)]; [rewrite loc_input in Hr; unfold pos in Hr; lia|].
          rewrite (loc_node m _ _ _ WF E2) in Hr. destruct (soft_dec n2) as [HS2|HS2].
          + assert (W2 : width n2 = 2) by (unfold width; rewrite HS2; reflexivity).
            assert (pos b' = pos b2 + 1) by lia. clear Hr. assert (EE : b' ++ n' :: a' = b2 ++ n2 :: a2) by congruence. unfold pos in H. clear - EE H W2 HS'.
            revert b2 EE H. induction b' as [|x b' IH]; intros [|y b2] EE H; cbn [app] in EE.
            * cbn in H. lia.
            * cbn in H. lia.
            * injection EE as -> EE. rewrite widths_cons in H. cbn in H. lia.
            * injection EE as -> EE. rewrite !widths_cons in H. apply (IH b2 EE). lia.
          + assert (W2 : width n2 = 1) by (unfold width; rewrite HS2; reflexivity). assert (n' = n2) by (eapply pos_inj; [exact E'|exact E2|lia]). subst n2. congruence. }
      apply only_one.
      + rewrite (links_symmetric _ L _ _ HP Hi), P1. cbn [map count_occ]. destruct (Nat.eq_dec (loc m nm) (loc m nm)); [reflexivity|congruence].
      + intros s Hs. assert (Hd : In s (dnn g)) by (apply (links_closed _ L (loc m nm)); auto). apply RD; [exact Hd|].
        apply (count_occ_In Nat.eq_dec). rewrite <- (links_symmetric _ L _ _ HP Hd). apply (count_occ_In Nat.eq_dec). exact Hs.
  Qed.
End Run.
