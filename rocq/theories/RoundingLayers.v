(** * Every layer respects the bounds. *)
From Coq Require Import ZArith List Lia Bool QArith Reals Lra.
Import ListNotations.
From Verif Require Import CMem Tensor Num RealInst Activation Movement MovementProofs Linear Conv Pooling Pad Reduce Resize Graph Net.
From Verif Require Broadcast BroadcastProofs.
From Verif Require Import PropertiesPooling PropertiesPad LayerKinds Rounding RoundingProofs.
Open Scope R_scope.
Open Scope list_scope.

Section Layers.
  Context (F : format).
  Notation FN := (fnum F). Notation BN := (bnum F).
  (** Operands. *)
  Inductive all_ops : list (list (float F)) -> list (list R) -> list (list bnd) -> Prop :=
    | ao_nil : all_ops [] [] []
    | ao_cons x y c xs ys cs : all_about x y c -> all_ops xs ys cs -> all_ops (x :: xs) (y :: ys) (c :: cs).
  Lemma ops_one x ys cs : all_ops [x] ys cs -> exists y c, ys = [y] /\ cs = [c] /\ all_about x y c.
  Proof. inversion 1 as [|? ? ? ? ? ? A B]; subst. inversion B; subst. eauto. Qed.
  Lemma ops_two x x' ys cs : all_ops [x; x'] ys cs -> exists y y' c c', ys = [y; y'] /\ cs = [c; c'] /\ all_about x y c /\ all_about x' y' c'.
  Proof. inversion 1 as [|? ? ? ? ? ? A B]; subst. inversion B as [|? ? ? ? ? ? A' B']; subst. inversion B'; subst. eauto 10. Qed.
  Lemma ops_other xs ys cs : all_ops xs ys cs -> length xs = length ys /\ length xs = length cs.
  Proof. induction 1; cbn [length]; lia. Qed.

  Lemma about_slice axis shapes f i j : forall xs ys cs inf, all_ops xs ys cs ->
    about (slice_at (n0 FN) axis inf (shaped_inputs FN shapes xs) f i j) (slice_at (n0 Rnum) axis inf (shaped_inputs Rnum shapes ys) f i j)
      (slice_at (n0 BN) axis inf (shaped_inputs BN shapes cs) f i j).
  Proof.
    unfold shaped_inputs. induction shapes as [|((c & h) & w) shapes IH]; intros xs ys cs inf H; [apply about_0|].
    destruct H as [|x y b xs ys cs A H]; [apply about_0|]. cbn [combine map fst snd slice_at]. destruct (_ <? _)%Z; [apply aa_at3; exact A|apply IH; exact H].
  Qed.
  Lemma ops_map shapes (f : Z) i j : forall xs ys cs, all_ops xs ys cs ->
    all_about (map (fun t => Broadcast.bat FN t f i j) (combine shapes xs)) (map (fun t => Broadcast.bat Rnum t f i j) (combine shapes ys))
      (map (fun t => Broadcast.bat BN t f i j) (combine shapes cs)).
  Proof.
    induction shapes as [|s shapes IH]; intros xs ys cs H; [constructor|]. destruct H as [|x y b xs ys cs A H]; [constructor|].
    cbn [combine map]. constructor; [unfold Broadcast.bat; cbn [fst snd]; apply aa_at3; exact A|apply IH; exact H].
  Qed.
  Lemma about_greatest op1 op2 op3 : (forall a b c a' b' c', @about F a b c -> @about F a' b' c' -> @about F (op1 a a') (op2 b b') (op3 c c')) ->
    forall d1 d2 la lb lc, @all_about F la lb lc ->
    about (match la with [] => d1 | v :: l => fold_left op1 l v end) (match lb with [] => d2 | v :: l => fold_left op2 l v end) (greatest op3 lc).
  Proof. intros X d1 d2 la lb lc H. destruct H; [exact I|]. cbn [greatest]. apply (about_fold F); assumption. Qed.

  Lemma aa_window P f i j x y c : @all_about F x y c ->
    all_about (window (image (n0 FN) P x f) (p_IH P) (p_IW P) (p_size P) (p_stride P) (p_top P) (p_left P) i j)
      (window (image (n0 Rnum) P y f) (p_IH P) (p_IW P) (p_size P) (p_stride P) (p_top P) (p_left P) i j)
      (window (image (n0 BN) P c f) (p_IH P) (p_IW P) (p_size P) (p_stride P) (p_top P) (p_left P) i j).
  Proof.
    intros A. unfold window. apply aa_flat_map. intros h. apply aa_flat_map. intros w. cbv zeta. destruct (_ && _); constructor; [|constructor]. apply aa_at3. exact A.
  Qed.
  Lemma about_len la lb lc : @all_about F la lb lc -> about (nofZ FN (zlen la)) (nofZ Rnum (zlen lb)) (nofZ BN (zlen lc)).
  Proof. intros H. destruct (aa_lengths F _ _ _ H) as (L1 & L2). rewrite <- L1, <- L2. apply about_ofZ. Qed.
  Lemma about_combine k la lb lc o1 o2 o3 : match k with Broadcast.BMax | Broadcast.BMin => false | _ => true end = true -> @all_about F la lb lc ->
    match o1, o2, o3 with None, None, None => True | Some a, Some b, Some c => @about F a b c | _, _, _ => False end ->
    about (BroadcastProofs.combine FN k la o1) (BroadcastProofs.combine Rnum k lb o2) (BroadcastProofs.combine BN k lc o3).
  Proof.
    intros K H HC. unfold BroadcastProofs.combine. assert (HZ := about_len _ _ _ H). destruct H as [|a b c la lb lc HA HO]; [apply about_0|].
    destruct o1, o2, o3; try contradiction; destruct k; try discriminate K; cbn [Broadcast.bop];
      try (apply about_add; [|exact HC]); try (apply about_sub; [|exact HC]); try (apply about_mul; [|exact HC]); try (apply about_div; [|exact HC || exact HZ]);
      apply (about_fold F); try assumption; intros; first [apply about_add; assumption|apply about_sub; assumption|apply about_mul; assumption|apply about_div; assumption].
  Qed.
  Lemma about_combine_max la lb lc o1 o2 : @all_about F la lb lc -> about (BroadcastProofs.combine FN Broadcast.BMax la o1) (BroadcastProofs.combine Rnum Broadcast.BMax lb o2) (greatest bmax lc).
  Proof. intros H. apply (about_greatest (np_maximum FN) (np_maximum Rnum) bmax (about_max F) (n0 FN) (n0 Rnum) la lb lc H). Qed.
  Lemma about_combine_min la lb lc o1 o2 : @all_about F la lb lc -> about (BroadcastProofs.combine FN Broadcast.BMin la o1) (BroadcastProofs.combine Rnum Broadcast.BMin lb o2) (greatest bmin lc).
  Proof. intros H. apply (about_greatest (np_minimum FN) (np_minimum Rnum) bmin (about_min F) (n0 FN) (n0 Rnum) la lb lc H). Qed.
  (** Softmax. *)
  Lemma badd_unknown x y : badd F x y <> Unknown -> x <> Unknown /\ y <> Unknown.
  Proof. destruct x, y; cbn; intros H; split; congruence. Qed.
  Lemma total_known l : forall acc, fold_left (badd F) (map (bexp F) l) acc <> Unknown -> acc <> Unknown /\ (forall c, In c l -> c <> Unknown).
  Proof.
    induction l as [|c l IH]; intros acc H; [split; [exact H|intros ? []]|]. cbn [map fold_left] in H. destruct (IH _ H) as (H1 & H2). apply badd_unknown in H1. destruct H1 as (H0 & H1).
    split; [exact H0|]. intros c' [<-|Hc]; [destruct c; [discriminate..|contradiction]|apply H2; exact Hc].
  Qed.
  Lemma lower_le la lb lc : @all_about F la lb lc -> (forall c, In c lc -> c <> Unknown) -> forall acc acc', acc <= acc' ->
    fold_left Rplus (map (fun c => exp (- magnitude c)) lc) acc <= fold_left Rplus (map exp lb) acc'.
  Proof.
    induction 1 as [|a b c la lb lc Hc H IH]; intros U acc acc' L; cbn [map fold_left]; [exact L|]. apply IH; [intros; apply U; right; assumption|].
    destruct (about_within F a b c (U c (or_introl eq_refl)) Hc) as (H1 & _). apply abs_split in H1.
    assert (exp (- magnitude c) <= exp b) by (apply exp_le; lra). lra.
  Qed.
  Lemma lower_float s' s L E : Rabs (s' - s) <= E -> L <= s -> L - E <= Rabs s'.
  Proof. intros H1 H2. apply abs_split in H1. eapply Rle_trans; [|apply Rle_abs]. lra. Qed.
  Lemma about_share la lb lc a b c : @all_about F la lb lc -> about a b c ->
    about (ndiv FN (nexp FN a) (fold_left (nadd FN) (map (nexp FN) la) (n0 FN))) (ndiv Rnum (nexp Rnum b) (fold_left (nadd Rnum) (map (nexp Rnum) lb) (n0 Rnum))) (share F lc c).
  Proof.
    intros HL HC. unfold share. destruct (Rlt_dec _ _) as [LT|]; [|exact I].
    pose proof (aa_map F la lb lc (nexp FN) (nexp Rnum) (nexp BN) (about_exp F) HL) as HE.
    pose proof (about_fold F (nadd FN) (nadd Rnum) (nadd BN) (about_add F) _ _ _ HE (n0 FN) (n0 Rnum) (n0 BN) (about_0 F)) as HT.
    change (fold_left (nadd BN) (map (nexp BN) lc) (n0 BN)) with (total F lc) in HT.
    assert (X : total F lc = Unknown \/ total F lc <> Unknown) by (destruct (total F lc); [right; discriminate..|left; reflexivity]).
    destruct X as [X|X]; [rewrite X; destruct (bexp F c); exact I|].
    pose proof (about_exp F a b c HC) as HX. change (nexp BN c) with (bexp F c) in HX.
    assert (Y : c = Unknown \/ c <> Unknown) by (destruct c; [right; discriminate..|left; reflexivity]).
    destruct Y as [-> |Y]; [exact I|].
    assert (KN : bexp F c <> Unknown) by (destruct c; [discriminate..|contradiction]).
    pose proof (proj2 (total_known lc _ X)) as U. pose proof (lower_le la lb lc HL U 0 0 (Rle_refl 0)) as LE.
    change (fold_left Rplus (map exp lb) 0) with (fold_left (nadd Rnum) (map (nexp Rnum) lb) (n0 Rnum)) in LE. change (fold_left Rplus (map (fun c => exp (- magnitude c)) lc) 0) with (lower lc) in LE.
    destruct (about_within F _ _ _ X HT) as (_ & HD).
    assert (E0 : 0 <= error (total F lc)) by (eapply Rle_trans; [apply Rabs_pos|exact HD]).
    apply about_quot; [exact HX|exact HT|lra|lra| | |].
    - eapply Rle_trans; [exact LE|apply Rle_abs].
    - exact (lower_float _ _ _ _ HD LE).
    - destruct (about_within F _ _ _ KN HX) as (HM & _). unfold Rdiv. rewrite Rabs_mult, Rabs_inv.
      apply Rmult_le_compat; [apply Rabs_pos|left; apply Rinv_0_lt_compat|exact HM|].
      + eapply Rlt_le_trans; [|apply Rle_abs]. eapply Rlt_le_trans; [|exact LE]. lra.
      + apply Rinv_le_contravar; [lra|]. eapply Rle_trans; [exact LE|apply Rle_abs].
  Qed.
  (** Elements that may be undefined: the same ones in the three. *)
  Definition opt_about (x : option (float F)) (y : option R) (c : option bnd) : Prop :=
    match x, y, c with Some a, Some b, Some d => about a b d | None, None, None => True | _, _, _ => False end.
  Lemma aa_sequence {A} (l : list A) f g h : (forall k, opt_about (f k) (g k) (h k)) ->
    match sequence (map f l), sequence (map g l), sequence (map h l) with
    | Some x, Some y, Some c => all_about x y c | None, None, None => True | _, _, _ => False end.
  Proof.
    intros H. induction l as [|k l IH]; cbn [map sequence bind]; [constructor|]. specialize (H k). unfold opt_about in H.
    destruct (f k), (g k), (h k); try contradiction; cbn [bind]; [|exact I].
    destruct (sequence (map f l)), (sequence (map g l)), (sequence (map h l)); try contradiction; cbn [bind]; [|exact I]. constructor; assumption.
  Qed.
  Lemma aa_sequence3 C H W f g h : (forall i j k, opt_about (f i j k) (g i j k) (h i j k)) ->
    all_about (or_nil FN (sequence (tab3 C H W f))) (or_nil Rnum (sequence (tab3 C H W g))) (or_nil BN (sequence (tab3 C H W h))).
  Proof.
    intros X. unfold tab3, tab.
    pose proof (aa_sequence (seq 0 (Z.to_nat (C * H * W))) (fun k => let k := Z.of_nat k in f (k / (H * W))%Z ((k / W) mod H)%Z (k mod W)%Z)
      (fun k => let k := Z.of_nat k in g (k / (H * W))%Z ((k / W) mod H)%Z (k mod W)%Z)
      (fun k => let k := Z.of_nat k in h (k / (H * W))%Z ((k / W) mod H)%Z (k mod W)%Z) (fun k => X _ _ _)) as P. cbv zeta in P.
    cbn [T fnum Rnum bnum] in *.
    repeat match goal with |- context [sequence ?s] => match type of P with context [sequence s] => generalize dependent (sequence s); intros end end.
    match type of P with match ?a with _ => _ end => destruct a end; repeat match type of P with match ?a with _ => _ end => destruct a end; try contradiction; cbn [or_nil]; [exact P|constructor].
  Qed.
  Lemma aa_rdl la lb lc k : @all_about F la lb lc -> opt_about (rdl la k) (rdl lb k) (rdl lc k).
  Proof.
    intros H. unfold rdl. destruct (k <? 0)%Z; [exact I|]. generalize (Z.to_nat k). induction H as [|a b c la lb lc Hc H IH]; intros [|n]; cbn [nth_error opt_about]; auto.
  Qed.
  Ltac one H := let A := fresh "A" in let B := fresh "H" in destruct H as [|? ? ? ? ? ? A B]; [constructor|destruct B; [|constructor]].
  Context (ninf : float F) (q : Q -> float F) (ninfR : R).
  Lemma layer_about (l : layer FN) xs ys cs : measured F l -> all_ops xs ys cs ->
    all_about (meaning FN ninf q l xs) (meaning Rnum ninfR Q2R (exact_layer F l) ys) (layer_bound F q l cs).
  Proof.
    destruct l as (k & act). intros (_ & M) H. unfold meaning, exact_layer, layer_bound. cbn [lkind lact].
    assert (ACT : forall a b c, @about F a b c -> about (compute FN act a) (compute Rnum (exact_act F act) b) (act_bound F act c)) by (intros; apply about_act; assumption).
    generalize dependent (compute FN act). intros f1. generalize dependent (compute Rnum (exact_act F act)). intros f2. generalize dependent (act_bound F act). intros f3 ACT.
    assert (MAP : forall la lb lc, @all_about F la lb lc -> all_about (map f1 la) (map f2 lb) (map f3 lc)) by (intros; eapply (aa_map F); eassumption).
    destruct k; cbn [kind_on meaning_with lkind measured] in *; try contradiction.
    - (* KInput4 *) one H. exact A.
    - (* KInput *) one H. exact A.
    - apply aa_known.
    - one H. apply MAP. exact A.
    - (* KDense *) one H. apply aa_tab. intros i _. apply ACT. apply about_add; [|apply aa_nth, aa_known]. apply about_nsum. intros j _.
      apply about_mul; [apply aa_nth; exact A|apply aa_at2, aa_known].
    - (* KMatMul *) destruct H as [|x y c xs ys cs A H]; [constructor|]. one H. apply MAP, aa_tab3. intros f i j. apply about_nsum. intros k _. apply about_mul; apply aa_at3; assumption.
    - (* KGemm *) destruct M as (-> & _). one H. cbv zeta. apply aa_tab2. intros i j. apply ACT. cbn [option_map scaled]. apply about_add.
      + apply about_nsum. intros p _. apply about_mul; [destruct tA; apply aa_at2; exact A|destruct tB; apply aa_at2, aa_known].
      + destruct beta as [be|]; cbn [option_map scaled]; [apply about_mul; [apply about_known|]|]; apply aa_nth, aa_known.
    - (* KBatchNorm *) one H. apply MAP, aa_tab2. intros f k. apply about_add; [|apply aa_nth, aa_known]. apply about_div.
      + apply about_mul; [apply aa_nth, aa_known|]. apply about_sub; [apply aa_at2; exact A|apply aa_nth, aa_known].
      + apply about_sqrt, about_add; [apply aa_nth, aa_known|apply about_known].
    - (* KTranspose *) one H. apply MAP, aa_tab3. intros f i j. apply aa_at3. exact A.
    - (* KConcat *) apply MAP, aa_tab3. intros f i j. apply about_slice. exact H.
    - (* KGather *) one H. apply MAP, aa_tab3. intros f i j. apply aa_at3. exact A.
    - one H. apply MAP, aa_tab3. intros f i j. cbv zeta. apply aa_at3. exact A.
    - (* KTile *) one H. apply MAP, aa_tab3. intros f i j. apply aa_at3. exact A.
    - (* KFlatten *) one H. destruct channels_last; [apply aa_tab3; intros f i j; apply aa_at3|]; exact A.
    - (* KConv *) one H. unfold convolution. apply MAP, aa_tab3. intros f i j. apply about_add; [|apply aa_nth, aa_known]. unfold nsum3. apply about_nsum. intros k _.
      apply about_mul; [unfold zero_padded; destruct (_ && _); [apply aa_at3; exact A|apply about_0]|apply aa_at3, aa_known].
    - (* KMaxPool *) one H. apply aa_tab3. intros f i j. apply ACT. unfold np_amax. apply about_greatest; [intros; apply about_max; assumption|]. apply aa_window. exact A.
    - (* KAvgPool *) one H. apply aa_tab3. intros f i j. apply ACT. unfold np_mean.
      pose proof (aa_window P f i j _ _ _ A) as HW. apply about_div.
      + apply (about_fold F); [intros; apply about_add; assumption|exact HW|apply about_0].
      + exact (about_len _ _ _ HW).
    - (* KPad *) one H. apply MAP. destruct mode; cbn [pad_py pad_fn].
      + apply aa_tab3. intros f i j. cbv zeta. destruct (_ && _); [apply aa_at3; exact A|apply about_known].
      + apply aa_tab3. intros f i j. apply aa_at3. exact A.
      + apply aa_tab3. intros f i j. apply aa_at3. exact A.
      + apply aa_tab3. intros f i j. apply aa_at3. exact A.
    - (* KBroadcast *)
      destruct k; unfold BroadcastProofs.broadcast_result; apply MAP, aa_tab3; intros f i j; pose proof (ops_map shapes f i j _ _ _ H) as HO.
      1-4, 7: apply about_combine; [reflexivity|exact HO|]; destruct cst as [t|]; [|exact I]; apply aa_at3; apply aa_known.
      + apply (about_combine_max _ _ _ _ _ HO).
      + apply (about_combine_min _ _ _ _ _ HO).
    - (* KReduce *)
      assert (CELLS : forall rc rh rw c h w x y b, @all_about F x y b -> all_about (red_cells FN C H0 W rc rh rw x c h w) (red_cells Rnum C H0 W rc rh rw y c h w) (red_cells BN C H0 W rc rh rw b c h w)).
      { intros. apply aa_tab3. intros. apply aa_at3. assumption. }
      destruct k; one H; apply MAP; unfold reduce_py; (destruct (empty_axes axes && noop); [exact A|]); cbv zeta; apply aa_tab3; intros f i j; unfold red_value.
      + apply (about_fold F); [intros; apply about_add; assumption|apply CELLS; exact A|apply about_0].
      + apply about_div; [apply (about_fold F); [intros; apply about_add; assumption|apply CELLS; exact A|apply about_0]|]. apply about_len. apply CELLS. exact A.
      + apply (about_fold F); [intros; apply about_mul; assumption|apply CELLS; exact A|apply about_1].
      + apply about_greatest; [intros; apply about_max; assumption|apply CELLS; exact A].
      + apply about_greatest; [intros; apply about_min; assumption|apply CELLS; exact A].
    - (* KSoftmax *)
      one H. apply MAP. unfold softmax_py. destruct (one_dimension C H0 W).
      + cbv zeta. rewrite !map_map. apply (aa_map F); [intros; apply about_share; assumption|exact A].
      + apply aa_tab3. intros f i j. apply about_share; [|apply aa_at3; exact A]. apply aa_tab3. intros. apply aa_at3. exact A.
    - (* KNearest *)
      one H. apply MAP. unfold nearest_py. apply aa_sequence3. intros f i j.
      destruct (cx coord_py p i); cbn [bind]; [|exact I]. destruct (cy coord_py p j); cbn [bind]; [|exact I].
      destruct (py_index _ _); cbn [bind]; [|exact I]. destruct (py_index _ _); cbn [bind]; [|exact I]. apply aa_rdl. exact A.
    - (* KLinear *)
      one H. apply MAP. unfold linear_py. apply aa_sequence3. intros f i j.
      destruct (cx coord_py p i); cbn [bind]; [|exact I]. destruct (cy coord_py p j); cbn [bind]; [|exact I]. cbv zeta. cbn [opt_about]. unfold bilinear. cbv zeta.
      assert (QQ : forall x, about (q x) (Q2R x) (bq F q x)) by (intros; split; reflexivity).
      assert (IF : forall (t : bool) u v w, @about F u v w -> about (if t then n0 FN else u) (if t then n0 Rnum else v) (if t then n0 BN else w)) by (intros t u v w X; destruct t; [apply about_0|exact X]).
      repeat first [apply about_div|apply about_add|apply about_mul|apply QQ|apply IF|apply aa_at3; exact A].
  Qed.
End Layers.
