(** * JSON, Keras and PyTorch importers: proofs. *)
From Coq Require Import String Ascii.
From Coq Require Import List Arith Bool Lia.
Import ListNotations.
From Verif Require Import CMem Graph GraphSpec Import ImportSpec ImportProofs ImportOnnxProofs.

(** ** Chains of connections to one new layer *)
(** [l'] is [l] with [ps] as producers of the (new) layer [c]. *)
Record extends (n c : nat) (ps : list nat) (l l' : links) : Prop := {
  ex_prev : lprev l' c = lprev l c ++ ps;
  ex_other : forall i, i <> c -> lprev l' i = lprev l i;
  ex_sym : symmetric l -> symmetric l';
  ex_within : within n l -> within n l' }.
Lemma extends_nil n c l : extends n c [] l l.
Proof. constructor; auto. now rewrite app_nil_r. Qed.
Lemma extends_cons n p c ps l l' : p < n -> c < n -> extends n c ps (connect p c l) l' -> extends n c (p :: ps) l l'.
Proof.
  intros Hp Hc [H1 H2 H3 H4]. constructor.
  - rewrite H1, connect_prev_same, <- app_assoc. reflexivity.
  - intros i Hi. rewrite H2 by exact Hi. now apply connect_prev_other.
  - intros S. now apply H3, connect_symmetric.
  - intros W. apply H4. now apply connect_within.
Qed.

(** Links under construction: [n] layers, producers come before. *)
Record building (n : nat) (l : links) : Prop := {
  b_sym : symmetric l; b_within : within n l; b_before : forall s p, In p (lprev l s) -> p < s }.
Lemma building_start n : building n no_links.
Proof. constructor; [apply no_links_symmetric|apply no_links_within|intros s p []]. Qed.
Lemma building_fresh n l : building n l -> lprev l n = [].
Proof.
  intros [_ W _]. destruct (lprev l n) as [|i r] eqn:E; [reflexivity|].
  assert (In i (lprev l n)) as H by (rewrite E; now left). specialize (W n i (or_introl H)). lia.
Qed.
Lemma building_extends n ps l l' : building n l -> Forall (fun p => p < n) ps -> extends (S n) n ps l l' ->
  building (S n) l' /\ lprev l' n = ps.
Proof.
  intros B Hp [H1 H2 H3 H4]. pose proof (building_fresh _ _ B) as F. rewrite F in H1. cbn in H1.
  split; [|exact H1]. destruct B as [B1 B2 B3]. constructor.
  - auto.
  - apply H4, (within_mono n); [lia|exact B2].
  - intros s p Hin. destruct (Nat.eq_dec s n) as [->|Hs].
    + rewrite H1 in Hin. rewrite Forall_forall in Hp. auto.
    + rewrite H2 in Hin by exact Hs. now apply B3.
Qed.
Lemma building_graph n l cst : building n l ->
  linked (mkGraph (seq 0 n) (lprev l) (lnext l) cst) /\ acyclic (mkGraph (seq 0 n) (lprev l) (lnext l) cst).
Proof.
  intros [B1 B2 B3]. split; [now apply linked_of_links|]. now apply (symmetric_acyclic _ _ _ (fun i => i)).
Qed.
Lemma extends_one n p c l : p < n -> c < n -> extends n c [p] l (connect p c l).
Proof. intros Hp Hc. apply extends_cons; auto. apply extends_nil. Qed.

(** ** PyTorch *)
Lemma torch_connect_extends d n c : forall args ps l,
  Forall2 (fun a p => sget d a = Some p /\ p < n) args ps -> c < n ->
  exists l', torch_connect d c args l = Some l' /\ extends n c ps l l'.
Proof.
  induction args as [|a r IH]; intros ps l H Hc; inversion H; subst.
  - exists l. split; [reflexivity|apply extends_nil].
  - destruct H2 as [E Hy]. cbn [torch_connect]. rewrite E. cbn [bind].
    destruct (IH l' (connect y c l) H4 Hc) as [l1 [E1 X]]. exists l1. split; [exact E1|]. now apply extends_cons.
Qed.
Lemma torch_connect_inv d c n : values_below n d -> c <= n -> forall args l l',
  torch_connect d c args l = Some l' -> exists ps, Forall2 (fun a p => sget d a = Some p /\ p < n) args ps.
Proof.
  intros V Hc. induction args as [|a r IH]; intros l l' E; cbn [torch_connect] in E.
  - exists []. constructor.
  - destruct (sget d a) as [p|] eqn:Ea; cbn [bind] in E; [|discriminate].
    destruct (IH _ _ E) as [ps H]. exists (p :: ps). constructor; [split; [exact Ea|exact (V _ _ Ea)]|exact H].
Qed.
Definition torch_ok (st : torch_state) : Prop :=
  building (t_count st) (t_links st) /\ values_below (t_count st) (t_dic st).
Lemma torch_step_ok st nd st' : torch_step st nd = Some st' -> torch_ok st ->
  torch_ok st' /\ (forall i, i < t_count st -> lprev (t_links st') i = lprev (t_links st) i) /\ t_count st <= t_count st' /\
  (forall n args, nd = TLayer n args -> t_count st' = S (t_count st) /\ Forall2 (fun a p => sget (t_dic st) a = Some p) args (lprev (t_links st') (t_count st))).
Proof.
  intros E [B V]. destruct nd as [n|n args|n a|f n a]; cbn [torch_step] in E.
  - injection E as <-. split; [split|split; [|split]]; cbn [t_count t_links t_dic]; auto; try discriminate.
    + destruct (building_extends _ [] _ _ B (Forall_nil _) (extends_nil _ _ _)) as [B' _]. exact B'.
    + apply (values_below_set (t_count st)); [lia|lia|exact V].
  - destruct (torch_connect (t_dic st) (t_count st) args (t_links st)) as [l|] eqn:El; cbn [bind] in E; [|discriminate].
    injection E as <-. destruct (torch_connect_inv _ _ _ V (Nat.le_refl _) _ _ _ El) as [ps H].
    destruct (torch_connect_extends (t_dic st) (S (t_count st)) (t_count st) args ps (t_links st)) as [l' [E' X]].
    { clear - H. induction H; constructor; auto. destruct H. split; [assumption|lia]. }
    { lia. }
    rewrite El in E'. injection E' as <-.
    assert (Forall (fun p => p < t_count st) ps) as Hps by (clear - H; induction H; constructor; tauto).
    destruct (building_extends _ _ _ _ B Hps X) as [B' P].
    split; [split|split; [|split]]; cbn [t_count t_links t_dic]; auto.
    + apply (values_below_set (t_count st)); [lia|lia|exact V].
    + intros i Hi. apply (ex_other _ _ _ _ _ X). lia.
    + intros n' args' [= <- <-]. split; [reflexivity|]. rewrite P. clear - H. induction H; constructor; tauto.
  - destruct (sget (t_dic st) a) as [k|] eqn:Ek; cbn [bind] in E; [|discriminate]. injection E as <-.
    split; [split|split; [|split]]; cbn [t_count t_links t_dic]; auto; try discriminate.
    apply (values_below_set (t_count st)); [lia|exact (V _ _ Ek)|exact V].
  - destruct (sget (t_dic st) a) as [k|] eqn:Ek; cbn [bind] in E; [|discriminate]. injection E as <-.
    split; [split|split; [|split]]; cbn [t_count t_links t_dic]; auto; try discriminate.
    apply (values_below_set (t_count st)); [lia|exact (V _ _ Ek)|exact V].
Qed.
Lemma torch_steps_ok nds : forall st st', torch_steps st nds = Some st' -> torch_ok st ->
  torch_ok st' /\ (forall i, i < t_count st -> lprev (t_links st') i = lprev (t_links st) i) /\ t_count st <= t_count st'.
Proof.
  induction nds as [|nd r IH]; intros st st' E H; cbn [torch_steps] in E.
  - injection E as <-. auto.
  - destruct (torch_step st nd) as [st1|] eqn:E1; cbn [bind] in E; [|discriminate].
    destruct (torch_step_ok _ _ _ E1 H) as [H1 [K1 [L1 _]]]. destruct (IH _ _ E H1) as [H2 [K2 L2]].
    split; [exact H2|]. split; [|lia]. intros i Hi. rewrite K2 by lia. now apply K1.
Qed.
Lemma torch_steps_app a : forall b st, torch_steps st (a ++ b) = bind (torch_steps st a) (fun s => torch_steps s b).
Proof.
  induction a as [|nd r IH]; intros b st; [reflexivity|]. cbn [app torch_steps].
  destruct (torch_step st nd); cbn [bind]; [apply IH|reflexivity].
Qed.
Lemma torch_start_ok : torch_ok (mkTState 0 [] no_links (fun _ => None)).
Proof. split; [apply building_start|intros k v; discriminate]. Qed.

(** the dictionary after the nodes [done] of [nds] *)
Lemma torch_dic_sound nds : forall rest done st st', nds = done ++ rest -> torch_steps st rest = Some st' ->
  t_count st = torch_layers_in done -> (forall n k, sget (t_dic st) n = Some k -> torch_held_by nds n k) ->
  t_count st' = torch_layers_in nds /\ (forall n k, sget (t_dic st') n = Some k -> torch_held_by nds n k).
Proof.
  induction rest as [|nd r IH]; intros done st st' En E Hc Hd; cbn [torch_steps] in E.
  - injection E as <-. rewrite app_nil_r in En. subst. auto.
  - destruct (torch_step st nd) as [st1|] eqn:E1; cbn [bind] in E; [|discriminate].
    assert (forall k, (makes_torch_layer nd = true -> k = t_count st) ->
      (makes_torch_layer nd = false -> torch_held_by nds (torch_name nd) k) ->
      forall n k', sget (sset (t_dic st) (torch_name nd) k) n = Some k' -> torch_held_by nds n k') as HS.
    { intros k K1 K2 n k'. destruct (String.eqb_spec (torch_name nd) n) as [<-|Hn].
      - rewrite sget_sset_same. intros [= <-]. destruct (makes_torch_layer nd) eqn:Em; [|now apply K2].
        rewrite (K1 eq_refl), Hc. now apply torch_own with r.
      - rewrite sget_sset_other by exact Hn. apply Hd. }
    assert (torch_layers_in (done ++ [nd]) = torch_layers_in done + if makes_torch_layer nd then 1 else 0) as HL.
    { unfold torch_layers_in. rewrite filter_app, app_length. cbn. destruct (makes_torch_layer nd); reflexivity. }
    apply (IH (done ++ [nd]) st1 st'); [rewrite <- app_assoc; exact En|exact E| |].
    + rewrite HL. destruct nd as [n|n args|n a|f n a]; cbn [torch_step makes_torch_layer] in *.
      * injection E1 as <-. cbn. lia.
      * destruct (torch_connect _ _ _ _); cbn [bind] in E1; [|discriminate]. injection E1 as <-. cbn. lia.
      * destruct (sget _ _); cbn [bind] in E1; [|discriminate]. injection E1 as <-. cbn. lia.
      * destruct (sget _ _); cbn [bind] in E1; [|discriminate]. injection E1 as <-. cbn. lia.
    + destruct nd as [n|n args|n a|f n a]; cbn [torch_step makes_torch_layer torch_name] in *.
      * injection E1 as <-. cbn [t_dic]. apply HS; [reflexivity|discriminate].
      * destruct (torch_connect _ _ _ _); cbn [bind] in E1; [|discriminate]. injection E1 as <-. cbn [t_dic]. apply HS; [reflexivity|discriminate].
      * destruct (sget (t_dic st) a) as [k|] eqn:Ek; cbn [bind] in E1; [|discriminate]. injection E1 as <-. cbn [t_dic].
        apply HS; [discriminate|]. intros _. apply (torch_alias _ done n a r k En). now apply Hd.
      * destruct (sget (t_dic st) a) as [k|] eqn:Ek; cbn [bind] in E1; [|discriminate]. injection E1 as <-. cbn [t_dic].
        apply HS; [discriminate|]. intros _. apply (torch_act _ done f n a r k En). now apply Hd.
Qed.
Lemma torch_held_mono before rest n k : torch_held_by before n k -> torch_held_by (before ++ rest) n k.
Proof.
  induction 1 as [b nd a E Hm|b n a af k E H IH|b f n a af k E H IH].
  - apply torch_own with (a ++ rest); [|exact Hm]. rewrite E, <- app_assoc. reflexivity.
  - apply (torch_alias _ b n a (af ++ rest) k); [|exact IH]. rewrite E, <- app_assoc. reflexivity.
  - apply (torch_act _ b f n a (af ++ rest) k); [|exact IH]. rewrite E, <- app_assoc. reflexivity.
Qed.
Lemma torch_held_unique nds n k1 : NoDup (map torch_name nds) -> torch_held_by nds n k1 ->
  forall k2, torch_held_by nds n k2 -> k1 = k2.
Proof.
  intros D.
  assert (forall l1 x r1 l2 y r2, nds = l1 ++ x :: r1 -> nds = l2 ++ y :: r2 -> torch_name x = torch_name y -> l1 = l2 /\ x = y) as U.
  { intros l1 x r1 l2 y r2 E1 E2 En. apply (split_unique (fun nd => [torch_name nd]) l1 x r1 l2 y r2 (torch_name x)).
    - congruence.
    - rewrite <- E1. rewrite flat_map_concat_map. clear - D. induction nds as [|a r IH]; [constructor|].
      cbn in *. inversion D; subst. constructor; [|auto]. intros K. apply H1. clear - K.
      induction r as [|b r IH]; [destruct K|]. cbn in *. destruct K; auto.
    - now left.
    - left. congruence. }
  induction 1 as [b nd a E Hm|b n a af k E H IH|b f n a af k E H IH]; intros k2 H2.
  - remember (torch_name nd) as nm eqn:Enm. destruct H2 as [b' nd' a' E' Hm'|b' n' a' af' k' E' H'|b' f' n' a' af' k' E' H'].
    + destruct (U _ _ _ _ _ _ E E' (eq_sym Enm)) as [-> _]. reflexivity.
    + destruct (U _ _ _ _ _ _ E E' (eq_sym Enm)) as [_ K]. rewrite K in Hm. discriminate.
    + destruct (U _ _ _ _ _ _ E E' (eq_sym Enm)) as [_ K]. rewrite K in Hm. discriminate.
  - inversion H2 as [b' nd' a' E' Hm' En|b' n' a' af' k' E' H'|b' f' n' a' af' k' E' H']; subst.
    + destruct (U _ _ _ _ _ _ eq_refl E' eq_refl) as [_ K]. rewrite <- K in Hm'. discriminate.
    + destruct (U _ _ _ _ _ _ eq_refl E' eq_refl) as [_ K]. injection K as <-. auto.
    + destruct (U _ _ _ _ _ _ eq_refl E' eq_refl) as [_ K]. discriminate.
  - inversion H2 as [b' nd' a' E' Hm' En|b' n' a' af' k' E' H'|b' f' n' a' af' k' E' H']; subst.
    + destruct (U _ _ _ _ _ _ eq_refl E' eq_refl) as [_ K]. rewrite <- K in Hm'. discriminate.
    + destruct (U _ _ _ _ _ _ eq_refl E' eq_refl) as [_ K]. discriminate.
    + destruct (U _ _ _ _ _ _ eq_refl E' eq_refl) as [_ K]. injection K as <- <-. auto.
Qed.

(** ** JSON *)
Lemma json_connect_extends n c : forall prevs l, Forall (fun p => p < n) prevs -> n <= c ->
  exists l', json_connect (seq 0 n) c prevs l = Some l' /\ extends (S c) c prevs l l'.
Proof.
  induction prevs as [|i r IH]; intros l H Hc.
  - exists l. split; [reflexivity|apply extends_nil].
  - inversion H; subst. cbn [json_connect].
    assert (nth_error (seq 0 n) i = Some i) as ->.
    { rewrite nth_error_nth' with (d := 0) by (rewrite seq_length; lia). now rewrite seq_nth by lia. }
    cbn [bind]. destruct (IH (connect i c l) H3 Hc) as [l' [E X]]. exists l'. split; [exact E|].
    apply extends_cons; auto; lia.
Qed.
(** Softmax layers created by a list of entries. *)
Definition softmax_of (jl : json_layer) : bool :=
  match jl with JEnum _ s => s | JConf _ _ s => s | _ => false end.
Definition prevs_of (jl : json_layer) : list nat :=
  match jl with JEnum p _ => p | JConf _ p _ => p | JBatchNorm p => p | _ => [] end.
Definition softmaxes (jls : list json_layer) : nat := length (filter softmax_of jls).
(** [done] entries read without error *)
Record json_ok (done : list json_layer) (st : json_state) : Prop := {
  jo_objects : j_objects st = 1 + length done + softmaxes done;
  jo_layers : j_layers st = seq 0 (j_objects st);
  jo_idx : forall o, o < j_objects st -> j_idx st o = o;
  jo_softmax : j_softmax st = softmaxes done;
  jo_building : building (j_objects st) (j_links st);
  jo_prevs : forall a jl b, done = a ++ jl :: b ->
    lprev (j_links st) (1 + length a + softmaxes a) = prevs_of jl /\
    (softmax_of jl = true -> lprev (j_links st) (2 + length a + softmaxes a) = [1 + length a + softmaxes a]);
  jo_input : lprev (j_links st) 0 = [] }.
Lemma softmaxes_snoc done jl : softmaxes (done ++ [jl]) = softmaxes done + if softmax_of jl then 1 else 0.
Proof. unfold softmaxes. rewrite filter_app, app_length. cbn. destruct (softmax_of jl); reflexivity. Qed.
Lemma snoc_split {A} (done : list A) x a y b : done ++ [x] = a ++ y :: b ->
  (a = done /\ y = x /\ b = []) \/ exists b', b = b' ++ [x] /\ done = a ++ y :: b'.
Proof.
  intros E. destruct (exists_last (l := y :: b) ltac:(discriminate)) as [b' [z Ez]].
  rewrite Ez, app_assoc in E. apply app_inj_tail in E. destruct E as [E <-].
  destruct b' as [|w b'].
  - cbn in Ez. injection Ez as -> ->. left. rewrite app_nil_r in E. auto.
  - cbn in Ez. injection Ez as <- ->. right. exists b'. auto.
Qed.
Lemma json_step_ok done st jl :
  json_ok done st ->
  match jl with JEnum _ _ => True | JConf i _ _ => i = 1 + length done + softmaxes done | _ => False end ->
  Forall (fun p => p < 1 + length done + softmaxes done) (prevs_of jl) ->
  exists st', json_step st (S (length done)) jl = Some st' /\ json_ok (done ++ [jl]) st'.
Proof.
  intros [H1 H2 H3 H4 H5 H6 H7] Hi Hp.
  set (idx := 1 + length done + softmaxes done) in *.
  assert (forall st0 prevs sm, prevs = prevs_of jl -> sm = softmax_of jl ->
    j_objects st0 = S (j_objects st) -> j_idx st0 = jset (j_idx st) (j_objects st) idx -> j_layers st0 = j_layers st -> j_links st0 = j_links st -> j_softmax st0 = j_softmax st ->
    exists st', json_finish st0 (j_objects st) idx prevs sm = Some st' /\ json_ok (done ++ [jl]) st') as HF.
  { intros st0 prevs sm -> Esm O1 O2 O3 O4 O5. unfold json_finish. rewrite O1, O2, O3, O4, O5, H2.
    rewrite H1. fold idx. rewrite H1 in H3, H5. fold idx in H3, H5.
    destruct (json_connect_extends idx idx (prevs_of jl) (j_links st) Hp (Nat.le_refl _)) as [l1 [E1 X]].
    rewrite E1. cbn [bind].
    destruct (building_extends _ _ _ _ H5 Hp X) as [B1 P1].
    assert (forall o, o < S idx -> jset (j_idx st) idx idx o = o) as HJ.
    { intros o Ho. unfold jset. destruct (Nat.eqb_spec o idx) as [->|Hn]; [reflexivity|]. apply H3. lia. }
    assert (forall a jl0 b, done = a ++ jl0 :: b -> 1 + length a + (softmaxes a + if softmax_of jl0 then 1 else 0) < idx) as Hlt.
    { intros a jl0 b E. unfold idx. rewrite E, app_length. unfold softmaxes. rewrite filter_app, app_length. cbn. destruct (softmax_of jl0); cbn; lia. }
    rewrite Esm. destruct (softmax_of jl) eqn:ES.
    - pose proof (extends_one (S (S idx)) idx (S idx) l1 ltac:(lia) ltac:(lia)) as X2.
      destruct (building_extends _ [idx] _ _ B1 ltac:(repeat constructor) X2) as [B2 P2].
      assert (forall i, i < idx -> lprev (connect idx (S idx) l1) i = lprev (j_links st) i) as HP.
      { intros i Hi'. rewrite (ex_other _ _ _ _ _ X2) by lia. apply (ex_other _ _ _ _ _ X). lia. }
      eexists. split; [reflexivity|]. constructor; cbn [j_objects j_layers j_idx j_softmax j_links].
      + rewrite app_length, softmaxes_snoc, ES. cbn. unfold idx. lia.
      + rewrite !seq_S. reflexivity.
      + intros o Ho. unfold jset at 1. destruct (Nat.eqb_spec o (S idx)) as [->|Hn]; [lia|]. apply HJ. lia.
      + rewrite softmaxes_snoc, ES, H4. lia.
      + exact B2.
      + intros a jl0 b E. destruct (snoc_split _ _ _ _ _ E) as [[-> [-> ->]]|[b' [-> E']]].
        * change (1 + length done + softmaxes done) with idx. change (2 + length done + softmaxes done) with (S idx).
          split; [|intros _; exact P2]. rewrite (ex_other _ _ _ _ _ X2) by lia. exact P1.
        * pose proof (Hlt _ _ _ E') as HL. destruct (H6 _ _ _ E') as [K1 K2]. split.
          -- rewrite HP by lia. exact K1.
          -- intros Hs. rewrite Hs in HL. rewrite HP by lia. now apply K2.
      + rewrite HP by (unfold idx; lia). exact H7.
    - assert (forall i, i < idx -> lprev l1 i = lprev (j_links st) i) as HP.
      { intros i Hi'. apply (ex_other _ _ _ _ _ X). lia. }
      eexists. split; [reflexivity|]. constructor; cbn [j_objects j_layers j_idx j_softmax j_links].
      + rewrite app_length, softmaxes_snoc, ES. cbn. unfold idx. lia.
      + rewrite seq_S. reflexivity.
      + exact HJ.
      + rewrite softmaxes_snoc, ES, H4. lia.
      + exact B1.
      + intros a jl0 b E. destruct (snoc_split _ _ _ _ _ E) as [[-> [-> ->]]|[b' [-> E']]].
        * change (1 + length done + softmaxes done) with idx. split; [exact P1|]. rewrite ES. discriminate.
        * pose proof (Hlt _ _ _ E') as HL. destruct (H6 _ _ _ E') as [K1 K2]. split.
          -- rewrite HP by lia. exact K1.
          -- intros Hs. rewrite Hs in HL. rewrite HP by lia. now apply K2.
      + rewrite HP by (unfold idx; lia). exact H7. }
  assert (S (length done) + j_softmax st = idx) as Eidx by (rewrite H4; reflexivity).
  destruct jl as [p s|i p s|p| |]; try contradiction; cbn [json_step]; rewrite Eidx.
  - apply HF; reflexivity.
  - apply HF; try reflexivity. cbn [j_idx]. now rewrite Hi.
Qed.
Lemma json_start_ok : json_ok [] (mkJState 1 (fun _ => O) [O] no_links 0 None).
Proof.
  constructor; cbn [j_objects j_layers j_idx j_softmax j_links]; try reflexivity.
  - intros o Ho. lia.
  - apply building_start.
  - intros a jl b E. destruct a; discriminate.
Qed.
(** Entries whose declared idx and prev_layer_idx are consistent. *)
Definition json_consistent (jls : list json_layer) : Prop :=
  forall before jl after, jls = before ++ jl :: after ->
    match jl with JEnum _ _ => True | JConf i _ _ => i = 1 + length before + softmaxes before | _ => False end /\
    Forall (fun p => p < 1 + length before + softmaxes before) (prevs_of jl).
Lemma json_steps_ok rest : forall done st, json_consistent (done ++ rest) -> json_ok done st ->
  exists st', json_steps st (S (length done)) rest = Some st' /\ json_ok (done ++ rest) st'.
Proof.
  induction rest as [|jl r IH]; intros done st C H.
  - exists st. rewrite app_nil_r. split; [reflexivity|exact H].
  - destruct (C done jl r eq_refl) as [C1 C2].
    destruct (json_step_ok done st jl H C1 C2) as [st1 [E1 H1]]. cbn [json_steps]. rewrite E1. cbn [bind].
    destruct (IH (done ++ [jl]) st1) as [st' [E2 H2]].
    + rewrite <- app_assoc. exact C.
    + exact H1.
    + rewrite app_length in E2. cbn in E2. rewrite Nat.add_1_r in E2. exists st'. rewrite <- app_assoc in H2. split; [exact E2|exact H2].
Qed.
Lemma json_graph_plain st n :
  j_layers st = seq 0 n -> (forall o, o < n -> j_idx st o = o) -> within n (j_links st) ->
  dnn (json_graph st) = seq 0 n /\
  (forall i, i < n -> previous_layer (json_graph st) i = lprev (j_links st) i) /\
  (forall i, i < n -> next_layer (json_graph st) i = lnext (j_links st) i).
Proof.
  intros H1 H2 W. unfold json_graph. cbn [dnn previous_layer next_layer]. rewrite H1.
  assert (map (j_idx st) (seq 0 n) = seq 0 n) as E.
  { rewrite <- (map_id (seq 0 n)) at 2. apply map_ext_in. intros o Ho. apply in_seq in Ho. apply H2. lia. }
  split; [exact E|].
  assert (forall (f : nat -> list nat) i m a, i < n -> (forall o x, In x (f o) -> x < n) ->
    (forall o, a <= o < a + m -> o < n) ->
    concat (map (fun o => if Nat.eqb (j_idx st o) i then map (j_idx st) (f o) else []) (seq a m)) =
    if (a <=? i) && (i <? a + m) then f i else []) as K.
  { intros f i m. induction m as [|m IH]; intros a Hi Hf Ha.
    - cbn [seq map concat]. destruct (Nat.leb_spec a i), (Nat.ltb_spec i (a + 0)); cbn [andb]; reflexivity || lia.
    - cbn [seq map concat]. rewrite IH by (auto; intros; apply Ha; lia). rewrite H2 by (apply Ha; lia).
      destruct (Nat.eqb_spec a i) as [->|Hn].
      + assert (map (j_idx st) (f i) = f i) as ->.
        { rewrite <- (map_id (f i)) at 2. apply map_ext_in. intros o Ho. apply H2. exact (Hf _ _ Ho). }
        destruct (Nat.leb_spec (S i) i), (Nat.leb_spec i i), (Nat.ltb_spec i (i + S m)); try lia. cbn [andb]. apply app_nil_r.
      + cbn [app]. destruct (Nat.leb_spec (S a) i), (Nat.leb_spec a i), (Nat.ltb_spec i (S a + m)), (Nat.ltb_spec i (a + S m)); cbn [andb]; reflexivity || lia. }
  rewrite nodup_fixed_point by apply seq_NoDup.
  split; intros i Hi.
  - rewrite (K (lprev (j_links st)) i n 0); [|exact Hi| |lia].
    + change (0 <=? i) with true. rewrite Nat.add_0_l. cbn [andb]. destruct (Nat.ltb_spec i n); [reflexivity|lia].
    + intros o x Hx. exact (proj2 (W o x (or_introl Hx))).
  - rewrite (K (lnext (j_links st)) i n 0); [|exact Hi| |lia].
    + change (0 <=? i) with true. rewrite Nat.add_0_l. cbn [andb]. destruct (Nat.ltb_spec i n); [reflexivity|lia].
    + intros o x Hx. exact (proj2 (W o x (or_intror Hx))).
Qed.
Lemma json_graph_ok done st : json_ok done st -> linked (json_graph st) /\ acyclic (json_graph st).
Proof.
  intros [H1 H2 H3 H4 [B1 B2 B3] H6 H7]. destruct (json_graph_plain st _ H2 H3 B2) as [D [P N]]. split.
  - constructor.
    + rewrite D. apply seq_NoDup.
    + rewrite D. intros p s Hp Hs. apply in_seq in Hp, Hs. rewrite N, P by lia. apply B1.
    + rewrite D. intros l i Hl Hi. apply in_seq in Hl. rewrite N, P in Hi by lia. apply in_seq.
      assert (In i (lprev (j_links st) l) \/ In i (lnext (j_links st) l)) as K by tauto. specialize (B2 _ _ K). lia.
  - exists (fun i => i). rewrite D. intros p s Hp Hs. apply in_seq in Hp. rewrite N in Hs by lia.
    apply B3. apply (count_occ_In Nat.eq_dec). rewrite <- (B1 p s). now apply (count_occ_In Nat.eq_dec).
Qed.

(** ** Keras *)
Definition ksoftmaxes (ls : list keras_layer) : nat := length (filter ksoftmax ls).
Lemma ksoftmaxes_snoc done kl : ksoftmaxes (done ++ [kl]) = ksoftmaxes done + if ksoftmax kl then 1 else 0.
Proof. unfold ksoftmaxes. rewrite filter_app, app_length. cbn. destruct (ksoftmax kl); reflexivity. Qed.
(** [done]: the layers after the input already read *)
Record keras_ok (done : list keras_layer) (st : keras_state) : Prop := {
  ko_layers : k_layers st = seq 0 (1 + length done + ksoftmaxes done);
  ko_softmax : k_softmax st = ksoftmaxes done;
  ko_building : building (1 + length done + ksoftmaxes done) (k_links st) }.
Lemma keras_start_ok : keras_ok [] (mkKState [O] no_links 0).
Proof. constructor; [reflexivity|reflexivity|apply building_start]. Qed.
Lemma keras_step_ok seqm start model done st kl prevs l1 :
  start <= 1 -> keras_ok done st -> kskip kl = false ->
  let idx := 1 + length done + ksoftmaxes done in
  (if seqm : bool then p <- nth_error (k_layers st) (idx - 1) ;; Some (connect p idx (k_links st))
   else keras_connect model (k_layers st) idx (kinputs kl) (k_links st)) = Some l1 ->
  Forall (fun p => p < idx) prevs -> extends (S idx) idx prevs (k_links st) l1 ->
  exists st', keras_step seqm start model st (start + length done) kl = Some st' /\ keras_ok (done ++ [kl]) st' /\
    (forall i, i < idx -> lprev (k_links st') i = lprev (k_links st) i) /\
    lprev (k_links st') idx = prevs /\
    (ksoftmax kl = true -> lprev (k_links st') (S idx) = [idx]).
Proof.
  intros Hst [H1 H2 H3] Hk idx El Hp X. unfold keras_step. rewrite Hk.
  replace (start + length done + 1 - start + k_softmax st) with idx by (unfold idx; rewrite H2; lia).
  rewrite El. cbn [bind]. fold idx in H1, H3.
  destruct (building_extends _ _ _ _ H3 Hp X) as [B1 P1].
  destruct (ksoftmax kl) eqn:ES.
  - pose proof (extends_one (S (S idx)) idx (S idx) l1 ltac:(lia) ltac:(lia)) as X2.
    destruct (building_extends _ [idx] _ _ B1 ltac:(repeat constructor) X2) as [B2 P2].
    eexists. split; [reflexivity|]. cbn [k_links]. rewrite Nat.add_1_r.
    assert (1 + length (done ++ [kl]) + ksoftmaxes (done ++ [kl]) = S (S idx)) as En.
    { rewrite app_length, ksoftmaxes_snoc, ES. cbn. unfold idx. lia. }
    split; [constructor; cbn [k_layers k_softmax k_links]|split; [|split]].
    + rewrite En, H1, !seq_S, <- app_assoc. reflexivity.
    + rewrite ksoftmaxes_snoc, ES, H2. lia.
    + rewrite En. exact B2.
    + intros i Hi. rewrite (ex_other _ _ _ _ _ X2) by lia. apply (ex_other _ _ _ _ _ X). lia.
    + rewrite (ex_other _ _ _ _ _ X2) by lia. exact P1.
    + intros _. exact P2.
  - eexists. split; [reflexivity|]. cbn [k_links].
    assert (1 + length (done ++ [kl]) + ksoftmaxes (done ++ [kl]) = S idx) as En.
    { rewrite app_length, ksoftmaxes_snoc, ES. cbn. unfold idx. lia. }
    split; [constructor; cbn [k_layers k_softmax k_links]|split; [|split]].
    + rewrite En, H1, seq_S. reflexivity.
    + rewrite ksoftmaxes_snoc, ES, H2. lia.
    + rewrite En. exact B1.
    + intros i Hi. apply (ex_other _ _ _ _ _ X). lia.
    + exact P1.
    + discriminate.
Qed.
Lemma nth_error_seq0 n i : i < n -> nth_error (seq 0 n) i = Some i.
Proof. intros H. rewrite nth_error_nth' with (d := 0) by (rewrite seq_length; lia). now rewrite seq_nth by lia. Qed.

Lemma keras_sequential_steps start model rest : forall done st, start <= 1 ->
  keras_ok done st -> Forall (fun kl => kskip kl = false) rest ->
  (forall i, 1 <= i < 1 + length done + ksoftmaxes done -> lprev (k_links st) i = [i - 1]) -> lprev (k_links st) 0 = [] ->
  exists st', keras_steps true start model st (start + length done) rest = Some st' /\ keras_ok (done ++ rest) st' /\
    (forall i, 1 <= i < 1 + length (done ++ rest) + ksoftmaxes (done ++ rest) -> lprev (k_links st') i = [i - 1]) /\ lprev (k_links st') 0 = [].
Proof.
  induction rest as [|kl r IH]; intros done st Hst H Hs Hp H0.
  - exists st. rewrite app_nil_r. auto.
  - inversion Hs; subst. set (idx := 1 + length done + ksoftmaxes done) in *.
    destruct (keras_step_ok true start model done st kl [idx - 1] (connect (idx - 1) idx (k_links st)) Hst H H3) as [st1 [E1 [O1 [A1 [P1 Q1]]]]].
    + rewrite (ko_layers _ _ H). fold idx. rewrite nth_error_seq0 by (unfold idx; lia). reflexivity.
    + constructor; [unfold idx; lia|constructor].
    + apply extends_one; unfold idx; lia.
    + cbn [keras_steps]. rewrite E1. cbn [bind]. fold idx in A1, P1, Q1.
      destruct (IH (done ++ [kl]) st1 Hst O1 H4) as [st' [E2 [O2 P2]]].
      * intros i Hi. rewrite app_length, ksoftmaxes_snoc in Hi. cbn in Hi.
        destruct (Nat.lt_ge_cases i idx) as [Hlt|Hge]; [rewrite A1 by exact Hlt; apply Hp; lia|].
        destruct (Nat.eq_dec i idx) as [->|Hn]; [exact P1|].
        destruct (ksoftmax kl) eqn:ES; [|unfold idx in *; lia].
        assert (i = S idx) as -> by (unfold idx in *; lia). rewrite Q1 by reflexivity. f_equal; lia.
      * rewrite A1 by (unfold idx; lia). exact H0.
      * rewrite app_length in E2. cbn in E2. rewrite <- app_assoc in O2, P2. exists st'. cbn [app] in *.
        replace (S (start + length done)) with (start + (length done + 1)) by lia. auto.
Qed.

(** functional models *)
Lemma find_name_at model : forall before kl after, model = before ++ kl :: after -> NoDup (map kname model) ->
  find_name (kname kl) model = Some (length before).
Proof.
  induction model as [|m r IH]; intros before kl after E D; destruct before as [|b before]; cbn in E; try discriminate.
  - injection E as -> _. cbn. now rewrite String.eqb_refl.
  - injection E as -> E. cbn [find_name]. cbn in D. inversion D; subst.
    destruct (String.eqb_spec (kname b) (kname kl)) as [K|_].
    + exfalso. apply H1. rewrite K. rewrite map_app. cbn. apply in_elt.
    + rewrite (IH before kl after eq_refl H2). reflexivity.
Qed.
Lemma keras_connect_extends model n c : NoDup (map kname model) -> forall ins l,
  Forall (fun name => exists b kl a, model = b ++ kl :: a /\ kname kl = name /\ length b < n) ins -> n <= c ->
  exists prevs l', keras_connect model (seq 0 n) c ins l = Some l' /\ extends (S c) c prevs l l' /\
    Forall (fun p => p < n) prevs /\
    Forall2 (fun name p => exists kl, nth_error model p = Some kl /\ kname kl = name) ins prevs.
Proof.
  intros D. induction ins as [|name r IH]; intros l H Hc.
  - exists [], l. split; [reflexivity|]. split; [apply extends_nil|]. split; constructor.
  - inversion H; subst. destruct H2 as [b [kl [a [E [<- Hb]]]]].
    cbn [keras_connect]. rewrite (find_name_at model b kl a E D), nth_error_seq0 by exact Hb. cbn [bind].
    destruct (IH (connect (length b) c l) H3 Hc) as [ps [l' [E' [X [Hp F]]]]].
    exists (length b :: ps), l'. split; [exact E'|]. split; [apply extends_cons; auto; lia|]. split; [now constructor|].
    constructor; [|exact F]. exists kl. split; [|reflexivity]. rewrite E, nth_error_app2, Nat.sub_diag by lia. reflexivity.
Qed.
Definition keras_reads (model : list keras_layer) (kl : keras_layer) (prevs : list nat) : Prop :=
  Forall2 (fun name p => exists k, nth_error model p = Some k /\ kname k = name) (kinputs kl) prevs.
Lemma keras_functional_steps inp rest : forall done st,
  NoDup (map kname (inp :: done ++ rest)) ->
  keras_ok done st -> Forall (fun kl => kskip kl = false) rest -> ksoftmaxes done = 0 ->
  (forall b kl a, rest = b ++ kl :: a -> a <> [] -> ksoftmax kl = false) ->
  (forall b kl a, rest = b ++ kl :: a ->
    Forall (fun name => exists b' kl' a', inp :: done ++ rest = b' ++ kl' :: a' /\ kname kl' = name /\ length b' < 1 + length done + length b) (kinputs kl)) ->
  exists st', keras_steps false 1 (inp :: done ++ rest) st (1 + length done) rest = Some st' /\ keras_ok (done ++ rest) st' /\
    (forall i, i < 1 + length done -> lprev (k_links st') i = lprev (k_links st) i) /\
    (forall b kl a, rest = b ++ kl :: a -> keras_reads (inp :: done ++ rest) kl (lprev (k_links st') (1 + length done + length b))) /\
    (forall b kl, rest = b ++ [kl] -> ksoftmax kl = true -> lprev (k_links st') (2 + length done + length b) = [1 + length done + length b]).
Proof.
  induction rest as [|kl r IH]; intros done st D H Hs H0 Hsm Hin.
  - exists st. rewrite app_nil_r. split; [reflexivity|]. split; [exact H|]. split; [auto|]. split; intros b; intros; destruct b; discriminate.
  - inversion Hs; subst. set (model := inp :: done ++ kl :: r) in *.
    pose proof (Hin [] kl r eq_refl) as Hi. cbn [length] in Hi. rewrite Nat.add_0_r in Hi.
    destruct (keras_connect_extends model (1 + length done) (1 + length done) D (kinputs kl) (k_links st) Hi (Nat.le_refl _)) as [ps [l1 [E1 [X [Hps HF]]]]].
    destruct (keras_step_ok false 1 model done st kl ps l1 (Nat.le_refl _) H H3) as [st1 [S1 [O1 [A1 [P1 Q1]]]]].
    + rewrite (ko_layers _ _ H), H0, Nat.add_0_r. exact E1.
    + rewrite H0, Nat.add_0_r. exact Hps.
    + rewrite H0, Nat.add_0_r. exact X.
    + rewrite H0, Nat.add_0_r in A1, P1, Q1. cbn [keras_steps]. rewrite S1. cbn [bind].
      destruct r as [|k2 r].
      * exists st1. split; [reflexivity|]. split; [exact O1|]. split; [exact A1|]. split.
        -- intros b kl0 a E. destruct b as [|? [|? ?]]; try discriminate. injection E as <- <-. cbn [length].
           unfold keras_reads. rewrite Nat.add_0_r, P1. exact HF.
        -- intros b kl0 E Hsk. destruct b as [|? [|? ?]]; try discriminate. injection E as <-. cbn [length].
           rewrite !Nat.add_0_r. now apply Q1.
      * pose proof (Hsm [] kl (k2 :: r) eq_refl ltac:(discriminate)) as Hk.
        destruct (IH (done ++ [kl]) st1) as [st' [S2 [O2 [A2 [P2 Q2]]]]].
        -- rewrite <- app_assoc. exact D.
        -- exact O1.
        -- exact H4.
        -- rewrite ksoftmaxes_snoc, H0, Hk. reflexivity.
        -- intros b kl0 a E Ha. apply (Hsm (kl :: b) kl0 a); [cbn; now rewrite E|exact Ha].
        -- intros b kl0 a E. specialize (Hin (kl :: b) kl0 a ltac:(cbn; now rewrite E)).
           rewrite <- app_assoc, app_length. cbn [app length] in *. eapply Forall_impl; [|exact Hin].
           intros name [b' [kl' [a' [K1 [K2 K3]]]]]. exists b', kl', a'. split; [exact K1|]. split; [exact K2|]. lia.
        -- rewrite <- app_assoc in *. cbn [app] in *. rewrite app_length in *. cbn [length] in *.
           replace (1 + (length done + 1)) with (2 + length done) in * by lia.
           exists st'. split; [exact S2|]. split; [exact O2|]. split; [intros i Hi'; rewrite A2 by lia; apply A1; lia|]. split.
           ++ intros b kl0 a E. destruct b as [|b0 b].
              ** cbn in E. injection E as <- _. cbn [length]. rewrite Nat.add_0_r, A2 by lia. unfold keras_reads. rewrite P1. exact HF.
              ** cbn in E. injection E as <- E. specialize (P2 b kl0 a E). cbn [length]. replace (1 + length done + S (length b)) with (2 + length done + length b) by lia. exact P2.
           ++ intros b kl0 E Hsk. destruct b as [|b0 b]; [cbn in E; discriminate|].
              cbn in E. injection E as <- E. specialize (Q2 b kl0 E Hsk). cbn [length].
              replace (2 + length done + S (length b)) with (2 + (length done + 1) + length b) by lia. rewrite Q2. f_equal. lia.
Qed.
