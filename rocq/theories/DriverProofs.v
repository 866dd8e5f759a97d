(** Proofs about Driver.v. *)
From Coq Require Import String ZArith List Lia Bool FinFun.
Import ListNotations.
From Verif Require Import CMem Driver.
Open Scope Z_scope.

Section Batches.
  Context (nb mx : Z) (Hnb : 0 <= nb) (Hmx : 0 < mx).

  (** j is a multiple of mx while the loop runs *)
  Lemma fin_bloc_eq j : j < nb -> 0 <= j -> (mx | j) -> fin_bloc nb mx j = Z.min mx (nb - j).
  Proof.
    intros Hj H0 (k & ->). unfold fin_bloc. destruct (Z.gtb_spec (k * mx + mx) nb).
    - assert (0 <= k) by nia.
      rewrite Z.rem_mod_nonneg by lia.
      assert (E : nb mod mx = nb - k * mx).
      { symmetry. apply Z.mod_unique_pos with (q := k); lia. }
      lia.
    - lia.
  Qed.

  Lemma batch_loop_total : forall n j, 0 <= j -> nb - j <= Z.of_nat n -> exists bs, batch_loop nb mx j bs.
  Proof.
    induction n as [|n IH]; intros j Hj Hn.
    - exists []. constructor. lia.
    - destruct (Z_lt_ge_dec j nb) as [Hl|Hl].
      + destruct (IH (j + mx)) as (bs & Hb); [lia|lia|]. exists (block nb mx j :: bs). constructor; assumption.
      + exists []. constructor. lia.
  Qed.

  Lemma batch_loop_det j bs1 : batch_loop nb mx j bs1 -> forall bs2, batch_loop nb mx j bs2 -> bs1 = bs2.
  Proof.
    induction 1 as [j Hj|j bs Hj HB IH]; intros bs2 H2; inversion H2; subst; try lia; [reflexivity|].
    f_equal. apply IH. assumption.
  Qed.

  Lemma block_rows j : map call_row (block nb mx j) = tab (fin_bloc nb mx j) (fun i => j + i).
  Proof. unfold block, tab. rewrite map_map. reflexivity. Qed.
  Lemma block_ctxs j : map call_ctx (block nb mx j) = tab (fin_bloc nb mx j) (fun i => i).
  Proof. unfold block, tab. rewrite map_map. reflexivity. Qed.

  Lemma tab_app {A} a b (f : Z -> A) : 0 <= a -> 0 <= b -> tab (a + b) f = tab a f ++ tab b (fun i => f (a + i)).
  Proof.
    intros Ha Hb. unfold tab. replace (Z.to_nat (a + b)) with (Z.to_nat a + Z.to_nat b)%nat by lia.
    rewrite seq_app, map_app. f_equal. cbn. rewrite <- (Nat.add_0_r (Z.to_nat a)) at 1.
    generalize 0%nat as k. induction (Z.to_nat b) as [|n IH]; intros k; [reflexivity|].
    cbn. f_equal; [f_equal; lia|]. rewrite <- IH. f_equal. f_equal. lia.
  Qed.

  Lemma tab_NoDup n : NoDup (tab n (fun i : Z => i)).
  Proof.
    unfold tab. apply FinFun.Injective_map_NoDup; [|apply seq_NoDup]. intros a b H. lia.
  Qed.

  Lemma in_tab {A} n (f : Z -> A) x : In x (tab n f) -> exists i, 0 <= i < n /\ x = f i.
  Proof.
    unfold tab. intros H. apply in_map_iff in H as (k & <- & Hk). apply in_seq in Hk. exists (Z.of_nat k). split; [lia|reflexivity].
  Qed.

  Lemma batch_loop_spec j bs : batch_loop nb mx j bs -> 0 <= j -> (mx | j) ->
    map call_row (concat bs) = tab (nb - j) (fun i => j + i) /\
    Forall (fun b => zlen b <= mx /\ NoDup (map call_ctx b) /\ Forall (fun c => 0 <= call_ctx c < mx /\ 0 <= call_row c < nb) b) bs.
  Proof.
    induction 1 as [j Hj|j bs Hj HB IH]; intros H0 Hd.
    - cbn. rewrite tab_0 by lia. split; [reflexivity|constructor].
    - destruct IH as (IH1 & IH2); [lia|apply Z.divide_add_r; [exact Hd|apply Z.divide_refl]|].
      pose proof (fin_bloc_eq j Hj H0 Hd) as EF.
      cbn [concat]. rewrite map_app, IH1, block_rows, EF. split.
      + destruct (Z.min_spec mx (nb - j)) as [(? & ->)|(? & ->)].
        * replace (nb - j) with (mx + (nb - (j + mx))) by lia. rewrite tab_app by lia. f_equal.
          apply tab_ext. intros k Hk. lia.
        * rewrite (tab_0 (nb - (j + mx))) by lia. apply app_nil_r.
      + constructor; [|exact IH2]. split; [|split].
        * unfold block. rewrite zlen_tab; rewrite EF; lia.
        * rewrite block_ctxs. apply tab_NoDup.
        * apply Forall_forall. intros c Hc. unfold block in Hc. apply in_tab in Hc as (i & Hi & ->). cbn. lia.
  Qed.
End Batches.

Section Threads.
  Context {L : Type} (step : L -> option L).
  Lemma alone_trans a b c : alone step a b -> alone step b c -> alone step a c.
  Proof. induction 1; intros H2; [exact H2|]. econstructor; eauto. Qed.
  Lemma moves_alone ls ls' : moves step ls ls' -> Forall2 (alone step) ls ls'.
  Proof.
    induction 1 as [l l' ls E|l ls ls' HM IH].
    - constructor; [econstructor; [exact E|constructor]|]. induction ls; constructor; [constructor|assumption].
    - constructor; [constructor|exact IH].
  Qed.
  Lemma interleaved_alone ls ls' : interleaved step ls ls' -> Forall2 (alone step) ls ls'.
  Proof.
    induction 1 as [ls|ls1 ls2 ls3 HM HI IH].
    - induction ls; constructor; [constructor|assumption].
    - apply moves_alone in HM. clear HI. revert ls3 IH. induction HM as [|a b la lb Hab HF IHF]; intros ls3 IH.
      + inversion IH. constructor.
      + inversion IH; subst. constructor; [eapply alone_trans; eassumption|]. apply IHF. assumption.
  Qed.
  Lemma alone_det a b c : alone step a b -> alone step a c -> returned step b -> returned step c -> b = c.
  Proof.
    induction 1 as [l|l1 l2 l3 E HA IH]; intros H2 Hb Hc.
    - inversion H2; subst; [reflexivity|]. unfold returned in Hb. congruence.
    - inversion H2; subst.
      + unfold returned in Hc. congruence.
      + apply IH; [|exact Hb|exact Hc]. congruence.
  Qed.
  (** finishing threads can be scheduled to completion *)
  Lemma alone_interleaved ls : forall ls', Forall2 (alone step) ls ls' -> interleaved step ls ls'.
  Proof.
    assert (TR : forall a b c, interleaved step a b -> interleaved step b c -> interleaved step a c).
    { induction 1; intros; [assumption|]. econstructor; eauto. }
    induction ls as [|l ls IH]; intros ls' HF; inversion HF as [|? b ? lb HA HF']; subst; [constructor|].
    assert (H1 : interleaved step (l :: ls) (b :: ls)).
    { clear -HA. induction HA; [constructor|]. econstructor; [constructor; eassumption|assumption]. }
    eapply TR; [exact H1|].
    specialize (IH lb HF'). clear -IH. induction IH; [constructor|]. econstructor; [constructor; eassumption|assumption].
  Qed.
End Threads.

Section Main.
  Context {Ctx X Y L : Type} (step : L -> option L).
  Context (start : Ctx -> X -> L) (ctx_of : L -> Ctx) (out_of : L -> Y).
  Context (ok_ctx : Ctx -> Prop) (ok_x : X -> Prop) (f : X -> Y).
  Hypothesis TERM : forall c x, ok_ctx c -> ok_x x ->
    exists l, alone step (start c x) l /\ returned step l /\ ok_ctx (ctx_of l) /\ out_of l = f x.

  Lemma gather_opt_some {A} (l : list (option A)) r : gather_opt l = Some r -> l = map Some r.
  Proof.
    revert r. induction l as [|o l IH]; intros r E; cbn in E; [injection E as <-; reflexivity|].
    destruct o as [x|]; [|discriminate]. destruct (gather_opt l) as [xs|]; [|discriminate]. injection E as <-.
    cbn. f_equal. apply IH. reflexivity.
  Qed.

  Lemma Forall_firstn' {A} (P : A -> Prop) n : forall l, Forall P l -> Forall P (firstn n l).
  Proof. induction n; intros [|a l] H; cbn; try constructor; inversion H; subst; auto. Qed.
  Lemma Forall_skipn' {A} (P : A -> Prop) n : forall l, Forall P l -> Forall P (skipn n l).
  Proof. induction n; intros [|a l] H; cbn; try constructor; inversion H; subst; auto. Qed.
  Lemma wrl_Forall {A} (P : A -> Prop) l i v l' : wrl l i v = Some l' -> Forall P l -> P v -> Forall P l'.
  Proof.
    unfold wrl. destruct (_ && _); [|discriminate]. intros [= <-] HF Hv.
    apply Forall_app. split; [apply Forall_firstn'|constructor; [exact Hv|apply Forall_skipn']]; exact HF.
  Qed.
  Lemma rdl_In {A} (l : list A) i v : rdl l i = Some v -> In v l.
  Proof. unfold rdl. destruct (i <? 0); [discriminate|]. apply nth_error_In. Qed.

  Context (nb mx : Z) (inputs : list X).
  Hypothesis HI : zlen inputs = nb.
  Hypothesis HOK : Forall ok_x inputs.
  Definition good_block (b : list call) := Forall (fun c => 0 <= call_ctx c < mx /\ 0 <= call_row c < nb) b.

  Lemma launch_ok b ctxs : good_block b -> zlen ctxs = mx -> Forall ok_ctx ctxs ->
    exists ls, launch start ctxs inputs b = Some ls /\
      Forall2 (fun c l => exists k x, ok_ctx k /\ rdl inputs (call_row c) = Some x /\ ok_x x /\ l = start k x) b ls.
  Proof.
    intros HB HC HO. induction HB as [|c b (Hc & Hr) HB IH].
    - exists []. split; [reflexivity|constructor].
    - destruct IH as (ls & E & HF).
      destruct (rdl_some ctxs (call_ctx c)) as (k & Ek); [lia|]. destruct (rdl_some inputs (call_row c)) as (x & Ex); [lia|].
      exists (start k x :: ls). unfold launch in *. cbn [map gather_opt]. rewrite Ek, Ex, E. split; [reflexivity|].
      constructor; [|exact HF]. exists k, x. rewrite Forall_forall in HO, HOK.
      split; [apply HO; eapply rdl_In; exact Ek|]. split; [exact Ex|]. split; [apply HOK; eapply rdl_In; exact Ex|reflexivity].
  Qed.

  Definition finished (c : call) (l : L) : Prop :=
    returned step l /\ ok_ctx (ctx_of l) /\ rdl inputs (call_row c) <> None /\ Some (out_of l) = option_map f (rdl inputs (call_row c)).

  Lemma all_finish b ls : Forall2 (fun c l => exists k x, ok_ctx k /\ rdl inputs (call_row c) = Some x /\ ok_x x /\ l = start k x) b ls ->
    (exists ls', Forall2 (alone step) ls ls' /\ Forall2 finished b ls') /\
    (forall ls', Forall2 (alone step) ls ls' -> Forall (returned step) ls' -> Forall2 finished b ls').
  Proof.
    induction 1 as [|c l b ls (k & x & Hk & Hx & Hox & ->) HF (IH1 & IH2)].
    - split; [exists []; split; constructor|]. intros ls' H _. inversion H. constructor.
    - destruct (TERM k x Hk Hox) as (l1 & HA & HR & HO & HV).
      assert (FIN : finished c l1).
      { unfold finished. rewrite Hx. split; [exact HR|]. split; [exact HO|]. split; [discriminate|]. cbn. rewrite HV. reflexivity. }
      split.
      + destruct IH1 as (ls' & H1 & H2). exists (l1 :: ls'). split; constructor; assumption.
      + intros ls' H1 H2. inversion H1 as [|? l2 ? ls2 HA2 HF2]; subst. inversion H2; subst. constructor.
        * rewrite <- (alone_det step _ _ _ HA HA2 HR ltac:(assumption)). exact FIN.
        * apply IH2; assumption.
  Qed.

  Lemma join_ok b ls : Forall2 finished b ls -> good_block b -> forall ctxs preds,
    zlen ctxs = mx -> Forall ok_ctx ctxs -> zlen preds = nb ->
    exists ctxs' preds', join ctx_of out_of ctxs preds b ls = Some (ctxs', preds') /\
      zlen ctxs' = mx /\ Forall ok_ctx ctxs' /\ zlen preds' = nb /\
      (forall k, In k (map call_row b) -> rdl preds' k = option_map f (rdl inputs k)) /\
      (forall k, ~ In k (map call_row b) -> rdl preds' k = rdl preds k).
  Proof.
    induction 1 as [|c l b ls (HR & HO & HN & HV) HF IH]; intros HB ctxs preds HC HCo HP.
    - exists ctxs, preds. cbn. split; [reflexivity|]. split; [exact HC|]. split; [exact HCo|]. split; [exact HP|].
      split; [intros k []|reflexivity].
    - inversion HB as [|? ? (Hc & Hr) HB']; subst.
      destruct (wrl_spec ctxs (call_ctx c) (ctx_of l)) as (ctxs1 & E1 & L1 & _); [lia|].
      destruct (wrl_spec preds (call_row c) (out_of l)) as (preds1 & E2 & L2 & R2 & R3); [lia|].
      destruct (IH HB' ctxs1 preds1) as (ctxs' & preds' & EJ & A1 & A2 & A3 & A4 & A5); [lia|eapply wrl_Forall; eauto|lia|].
      exists ctxs', preds'. cbn [join]. rewrite E1, E2. split; [exact EJ|]. split; [exact A1|]. split; [exact A2|]. split; [exact A3|].
      split.
      + intros k Hk. destruct (in_dec Z.eq_dec k (map call_row b)) as [Hi|Hi]; [apply A4; exact Hi|].
        destruct Hk as [<-|Hk]; [|contradiction]. rewrite A5 by exact Hi. rewrite R2. exact HV.
      + intros k Hk. rewrite A5; [|intros Hi; apply Hk; right; exact Hi]. apply R3. intros ->. apply Hk. left. reflexivity.
  Qed.

  Definition inv (st : list Ctx * list Y) := zlen (fst st) = mx /\ Forall ok_ctx (fst st) /\ zlen (snd st) = nb.

  Lemma exec_sound bs st st' : exec_blocks step start ctx_of out_of inputs bs st st' -> Forall good_block bs -> inv st ->
    inv st' /\
    (forall k, In k (map call_row (concat bs)) -> rdl (snd st') k = option_map f (rdl inputs k)) /\
    (forall k, ~ In k (map call_row (concat bs)) -> rdl (snd st') k = rdl (snd st) k).
  Proof.
    induction 1 as [st|b bs ctxs preds ls ls' st1 st2 EL HIl HR EJ HE IH]; intros HG HInv.
    - split; [exact HInv|]. split; [intros k []|reflexivity].
    - inversion HG as [|? ? HB HG']; subst. destruct HInv as (I1 & I2 & I3). cbn [fst snd] in *.
      destruct (launch_ok b ctxs HB I1 I2) as (ls0 & EL0 & HF). rewrite EL in EL0. injection EL0 as <-.
      apply interleaved_alone in HIl. destruct (all_finish b ls HF) as (_ & AF). specialize (AF ls' HIl HR).
      destruct (join_ok b ls' AF HB ctxs preds I1 I2 I3) as (ctxs' & preds' & EJ' & A1 & A2 & A3 & A4 & A5).
      rewrite EJ in EJ'. injection EJ' as ->.
      destruct IH as (B1 & B2 & B3); [exact HG'|split; [exact A1|split; [exact A2|exact A3]]|]. cbn [fst snd] in *.
      split; [exact B1|]. cbn [concat]. rewrite map_app. split.
      + intros k Hk. destruct (in_dec Z.eq_dec k (map call_row (concat bs))) as [Hi|Hi]; [apply B2; exact Hi|].
        apply in_app_or in Hk as [Hk|Hk]; [|contradiction]. rewrite B3 by exact Hi. apply A4. exact Hk.
      + intros k Hk. rewrite B3; [|intros Hi; apply Hk; apply in_or_app; right; exact Hi].
        apply A5. intros Hi. apply Hk. apply in_or_app. left. exact Hi.
  Qed.

  Lemma exec_exists bs : Forall good_block bs -> forall st, inv st -> exists st', exec_blocks step start ctx_of out_of inputs bs st st'.
  Proof.
    induction 1 as [|b bs HB HG IH]; intros st HInv; [exists st; constructor|].
    destruct st as [ctxs preds]. destruct HInv as (I1 & I2 & I3). cbn [fst snd] in *.
    destruct (launch_ok b ctxs HB I1 I2) as (ls & EL & HF).
    destruct (all_finish b ls HF) as ((ls' & HA & HFin) & _).
    destruct (join_ok b ls' HFin HB ctxs preds I1 I2 I3) as (ctxs' & preds' & EJ & A1 & A2 & A3 & _).
    destruct (IH (ctxs', preds')) as (st' & HE); [split; [exact A1|split; [exact A2|exact A3]]|].
    exists st'. econstructor; [exact EL|apply alone_interleaved; exact HA| |exact EJ|exact HE].
    clear -HFin. induction HFin as [|? ? ? ? (HR & _)]; constructor; assumption.
  Qed.

  Lemma exec_result bs st st' : exec_blocks step start ctx_of out_of inputs bs st st' -> Forall good_block bs -> inv st ->
    map call_row (concat bs) = tab nb (fun i => i) -> snd st' = map f inputs.
  Proof.
    intros HE HG HInv HR. destruct (exec_sound bs st st' HE HG HInv) as ((_ & _ & I3) & B2 & _).
    assert (LM : zlen (map f inputs) = nb) by (unfold zlen in *; rewrite map_length; exact HI).
    apply list_ext; [lia|]. intros k Hk. rewrite B2.
    - unfold rdl. destruct (k <? 0); [reflexivity|]. rewrite nth_error_map. destruct (nth_error inputs (Z.to_nat k)); reflexivity.
    - rewrite HR. unfold tab. apply in_map_iff. exists (Z.to_nat k). split; [lia|]. apply in_seq. lia.
  Qed.
End Main.

(** Printing *)
Lemma print_row_ok {V} (row : list V) w : 0 < w -> zlen row = w ->
  print_row w row = Some (map Value row ++ [Newline]).
Proof.
  intros Hw HL. unfold print_row.
  set (P := fun (i : Z) (acc : list (token V)) =>
    acc = map Value (firstn (Z.to_nat i) row) ++ (if i =? w then [Newline] else [])).
  destruct (for_inv P w (fun j acc => v <- rdl row j ;;
    Some (acc ++ Value v :: (if j =? w - 1 then [Newline] else []))) []) as (s' & E & HP).
  - lia.
  - unfold P. destruct (Z.eqb_spec 0 w); [lia|reflexivity].
  - intros i s Hi ->. destruct (rdl_some row i) as (v & Ev); [lia|]. rewrite Ev. cbn [bind]. eexists. split; [reflexivity|].
    unfold P. destruct (Z.eqb_spec i w); [lia|]. rewrite app_nil_r.
    replace (Z.to_nat (i + 1)) with (S (Z.to_nat i)) by lia.
    assert (F : firstn (S (Z.to_nat i)) row = firstn (Z.to_nat i) row ++ [v]).
    { unfold rdl in Ev. destruct (i <? 0); [discriminate|]. clear -Ev. revert row Ev.
      induction (Z.to_nat i) as [|n IH]; intros [|a row] Ev; try discriminate.
      - injection Ev as ->. reflexivity.
      - cbn [nth_error] in Ev. specialize (IH row Ev). cbn [firstn app] in *. rewrite IH. reflexivity. }
    rewrite F, map_app, <- app_assoc. cbn [map app]. f_equal. f_equal.
    destruct (Z.eqb_spec i (w - 1)), (Z.eqb_spec (i + 1) w); try lia; reflexivity.
  - rewrite E. unfold P in HP. rewrite HP. rewrite Z.eqb_refl. f_equal. f_equal. f_equal.
    apply firstn_all2. unfold zlen in HL. lia.
Qed.

Lemma print_all_ok {V} (preds : list (list V)) nb w : 0 < w -> zlen preds = nb -> Forall (fun r => zlen r = w) preds ->
  print_all nb w preds = Some (flat_map (fun r => map Value r ++ [Newline]) preds).
Proof.
  intros Hw HL HF. unfold print_all.
  set (P := fun (i : Z) (acc : list (token V)) => acc = flat_map (fun r => map Value r ++ [Newline]) (firstn (Z.to_nat i) preds)).
  destruct (for_inv P nb (fun i acc => row <- rdl preds i ;; t <- print_row w row ;; Some (acc ++ t)) []) as (s' & E & HP).
  - pose proof (zlen_nonneg preds). lia.
  - reflexivity.
  - intros i s Hi ->. destruct (rdl_some preds i) as (v & Ev); [lia|]. rewrite Ev. cbn [bind].
    rewrite Forall_forall in HF. rewrite print_row_ok; [|lia|apply HF; eapply rdl_In; exact Ev]. cbn [bind].
    eexists. split; [reflexivity|]. unfold P. replace (Z.to_nat (i + 1)) with (S (Z.to_nat i)) by lia.
    assert (F : firstn (S (Z.to_nat i)) preds = firstn (Z.to_nat i) preds ++ [v]).
    { unfold rdl in Ev. destruct (i <? 0); [discriminate|]. clear -Ev. revert preds Ev.
      induction (Z.to_nat i) as [|n IH]; intros [|a row] Ev; try discriminate.
      - injection Ev as ->. reflexivity.
      - cbn [nth_error] in Ev. specialize (IH row Ev). cbn [firstn app] in *. rewrite IH. reflexivity. }
    rewrite F, flat_map_app. cbn [flat_map]. rewrite app_nil_r. reflexivity.
  - rewrite E. unfold P in HP. rewrite HP. f_equal. f_equal. apply firstn_all2. unfold zlen in HL. lia.
Qed.

(** Datasets *)
Lemma load_loop_ok {Line Row} (parse : Line -> option Row) nb lines : forall i acc,
  load_loop parse i nb lines acc =
  match gather_opt (map parse (firstn (Z.to_nat (nb - i)) lines)) with Some r => Some (acc ++ r) | None => None end.
Proof.
  induction lines as [|l ls IH]; intros i acc; cbn [load_loop].
  - rewrite firstn_nil. cbn. rewrite app_nil_r. reflexivity.
  - destruct (Z.geb_spec i nb).
    + replace (Z.to_nat (nb - i)) with 0%nat by lia. cbn. rewrite app_nil_r. reflexivity.
    + replace (Z.to_nat (nb - i)) with (S (Z.to_nat (nb - (i + 1)))) by lia. cbn [firstn map gather_opt].
      destruct (parse l) as [r|]; [|reflexivity]. rewrite IH.
      destruct (gather_opt _) as [rs|]; [|reflexivity]. rewrite <- app_assoc. reflexivity.
Qed.

(** Files *)
Lemma do_write_other d w f : f <> w_file w -> do_write d w f = d f.
Proof. intros H. unfold do_write, set_file. destruct (String.eqb_spec f (w_file w)); [contradiction|reflexivity]. Qed.
Lemma fold_write_other ws : forall d f, ~ In f (map w_file ws) -> fold_left do_write ws d f = d f.
Proof.
  induction ws as [|w ws IH]; intros d f H; [reflexivity|]. cbn [fold_left]. rewrite IH.
  - apply do_write_other. intros E. apply H. left. symmetry. exact E.
  - intros E. apply H. right. exact E.
Qed.
Lemma fold_write_in ws : forall d f t, NoDup (map w_file ws) -> In f (map w_file ws) -> d f = None ->
  (forall w, In w ws -> w_text w = t (w_file w)) -> fold_left do_write ws d f = Some (t f).
Proof.
  induction ws as [|w ws IH]; intros d f t ND Hi Hd HT; [destruct Hi|]. cbn [map] in ND. inversion ND; subst.
  cbn [fold_left]. destruct (String.eqb_spec f (w_file w)) as [->|NE].
  - rewrite fold_write_other by assumption. unfold do_write, set_file. rewrite String.eqb_refl, Hd.
    rewrite (HT w) by (left; reflexivity). destruct (w_mode w); reflexivity.
  - apply IH; auto.
    + destruct Hi as [E|Hi]; [congruence|exact Hi].
    + rewrite do_write_other; assumption.
    + intros w' Hw. apply HT. right. exact Hw.
Qed.
