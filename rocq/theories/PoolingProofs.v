From Coq Require Import ZArith List Lia Bool.
Import ListNotations.
Open Scope Z_scope.
From Verif Require Import CMem Tensor Num Activation Pooling.

Lemma zrange_succ n : 0 <= n -> zrange (n + 1) = zrange n ++ [n].
Proof. intros H. unfold zrange. apply tab_succ. exact H. Qed.
Lemma zrange_0 n : n <= 0 -> zrange n = [].
Proof. apply tab_0. Qed.
Lemma in_zrange n k : In k (zrange n) <-> 0 <= k < n.
Proof.
  unfold zrange, tab. rewrite in_map_iff. split.
  - intros (q & <- & Hq). apply in_seq in Hq. lia.
  - intros H. exists (Z.to_nat k). split; [lia|]. apply in_seq. lia.
Qed.
Lemma zrange_split a b : 0 <= a -> 0 <= b -> zrange (a + b) = zrange a ++ map (fun k => a + k) (zrange b).
Proof.
  intros Ha. revert b. apply for_ind.
  - rewrite Z.add_0_r, (zrange_0 0) by lia. cbn. symmetry. apply app_nil_r.
  - intros b Hb IH. rewrite Z.add_assoc, !zrange_succ, IH, map_app by lia. rewrite app_assoc. reflexivity.
Qed.

Lemma flat_map_nil {A B} (f : A -> list B) l : (forall a, In a l -> f a = []) -> flat_map f l = [].
Proof. induction l as [|a l IH]; intros H; [reflexivity|]. cbn. rewrite H by (left; reflexivity). apply IH. intros. apply H. right. assumption. Qed.
Lemma flat_map_ext_in {A B} (f g : A -> list B) l : (forall a, In a l -> f a = g a) -> flat_map f l = flat_map g l.
Proof. induction l as [|a l IH]; intros H; [reflexivity|]. cbn. rewrite H by (left; reflexivity). f_equal. apply IH. intros. apply H. right. assumption. Qed.
Lemma flat_map_map {A B C} (f : B -> list C) (g : A -> B) l : flat_map f (map g l) = flat_map (fun a => f (g a)) l.
Proof. induction l; [reflexivity|]. cbn. f_equal. assumption. Qed.

(** A flat_map whose members outside [a,b) are empty. *)
Lemma zrange_clip {B} n a b (F : Z -> list B) : 0 <= a -> b <= n ->
  (forall k, 0 <= k < n -> k < a \/ b <= k -> F k = []) ->
  flat_map F (zrange n) = flat_map (fun k => F (a + k)) (zrange (b - a)).
Proof.
  intros Ha Hb HF. destruct (Z_le_gt_dec b a) as [H|H].
  - rewrite (zrange_0 (b - a)) by lia. cbn. apply flat_map_nil. intros k Hk. apply in_zrange in Hk. apply HF; lia.
  - replace n with (a + ((b - a) + (n - b))) by lia.
    rewrite (zrange_split a), (zrange_split (b - a)) by lia.
    rewrite map_app, !flat_map_app, !flat_map_map.
    rewrite (flat_map_nil F (zrange a)), (flat_map_nil _ (zrange (n - b))); [cbn; apply app_nil_r| |].
    + intros k Hk. apply in_zrange in Hk. apply HF; lia.
    + intros k Hk. apply in_zrange in Hk. apply HF; lia.
Qed.

Lemma iter_fold {A B} n (F : Z -> list B) (g : A -> B -> A) s :
  iterZ n (fun h s => fold_left g (F h) s) s = fold_left g (flat_map F (zrange n)) s.
Proof.
  destruct (Z_le_gt_dec n 0) as [Hn|Hn]; [rewrite iterZ_0, zrange_0 by lia; reflexivity|].
  assert (G : forall k, 0 <= k -> k <= n -> iterZ k (fun h s => fold_left g (F h) s) s = fold_left g (flat_map F (zrange k)) s).
  { intros k Hk. pattern k. revert k Hk. apply for_ind.
    - intros _. rewrite iterZ_0, zrange_0 by lia. reflexivity.
    - intros k Hk IH Hkn. rewrite iterZ_succ, zrange_succ, IH by lia. rewrite flat_map_app, fold_left_app. cbn.
      rewrite app_nil_r. reflexivity. }
  apply G; lia.
Qed.

Lemma loop_fold {A B} n (F : Z -> list B) (g : A -> B -> A) body s :
  (forall h s, 0 <= h < n -> body h s = Some (fold_left g (F h) s)) ->
  for_ n body s = Some (fold_left g (flat_map F (zrange n)) s).
Proof. intros H. rewrite <- iter_fold. apply for_pure. exact H. Qed.

Section CHW.
  Context (N : num) (ninf : T N).
  Notation V := (T N).
  Notation mem := (mem V).

  Definition sizes_ok (P : pool) : Prop := 0 <= p_C P /\ 0 <= p_OH P /\ 0 <= p_OW P.

  Lemma pool_window_ok {S} P src f i j (step : V -> S -> S) (m : mem) s0 x :
    holds m src x -> zlen x = p_C P * p_IH P * p_IW P -> 0 <= f < p_C P ->
    pool_window N P src f i j step m s0 =
    Some (fold_left (fun s v => step v s)
      (window (fun a b => at3 (n0 N) (p_IH P) (p_IW P) x f a b) (p_IH P) (p_IW P) (p_size P) (p_stride P) (p_left P) (p_top P) i j) s0).
  Proof.
    intros Hm Hx Hf. unfold pool_window, window. apply loop_fold. intros h s Hh. apply loop_fold. intros w s1 Hw. cbv zeta.
    set (ii := i * p_stride P + h - p_left P). set (jj := j * p_stride P + w - p_top P).
    destruct ((0 <=? ii) && (ii <? p_IH P) && (0 <=? jj) && (jj <? p_IW P)) eqn:E; [|reflexivity].
    rewrite !andb_true_iff, !Z.leb_le, !Z.ltb_lt in E.
    rewrite (rd_at3 (n0 N) m src x (p_C P) (p_IH P) (p_IW P) f ii jj); [reflexivity|auto; lia..].
  Qed.

  Lemma pool_ok {S} P src out (step : V -> S -> S) s0 (fin : S -> V) x :
    out <> Temp -> src <> Temp -> sizes_ok P -> zlen x = p_C P * p_IH P * p_IW P ->
    layer_ok (via_temp (for_ (p_C P) (fun f => for_ (p_OH P) (fun i => for_ (p_OW P) (fun j m =>
        s <- pool_window N P src f i j step m s0 ;;
        wr m Temp (j + p_OW P * (i + p_OH P * f)) (fin s)))))
      (p_C P * p_OH P * p_OW P) (fun v => v) out) [(src, x)] out (p_C P * p_OH P * p_OW P) (p_C P * p_OH P * p_OW P)
      (tab3 (p_C P) (p_OH P) (p_OW P) (fun f i j => fin (fold_left (fun s v => step v s)
        (window (fun a b => at3 (n0 N) (p_IH P) (p_IW P) x f a b) (p_IH P) (p_IW P) (p_size P) (p_stride P) (p_left P) (p_top P) i j) s0))).
  Proof.
    intros Ho Hs (HC & HH & HW) Hx. rewrite <- (map_id (tab3 _ _ _ _)). apply via_temp_ok; [exact Ho|apply zlen_tab3; assumption|].
    intros m Hm Ht. apply holds_src1 in Hm. apply fill3; [assumption..|].
    intros f i j m' Hf Hi Hj O _ _. rewrite (pool_window_ok P src f i j step m' s0 x); [reflexivity| |exact Hx|exact Hf].
    eapply holds_other; eauto.
  Qed.

  Lemma fold_max l (u : V) : fold_left (fun s v => max_step N v s) l (Some u) = Some (fold_left (np_maximum N) l u).
  Proof.
    revert u. induction l as [|v l IH]; intros u; [reflexivity|]. cbn [fold_left max_step].
    unfold np_maximum at 2. destruct (nlt N u v); apply IH.
  Qed.
  Lemma max_result_amax l : max_result N ninf (fold_left (fun s v => max_step N v s) l None) = np_amax N ninf l.
  Proof. destruct l as [|v l]; [reflexivity|]. cbn [fold_left max_step]. rewrite fold_max. reflexivity. Qed.
  Lemma fold_avg l (s : V) k : fold_left (fun s v => avg_step N v s) l (s, k) = (fold_left (nadd N) l s, k + zlen l).
  Proof.
    revert s k. induction l as [|v l IH]; intros s k; [rewrite zlen_nil, Z.add_0_r; reflexivity|].
    cbn [fold_left avg_step fst snd]. unfold avg_step. cbn [fst snd]. rewrite IH, zlen_cons. f_equal. lia.
  Qed.

  Lemma max_pool_ok P src out act x : out <> Temp -> src <> Temp -> sizes_ok P -> zlen x = p_C P * p_IH P * p_IW P ->
    layer_ok (max_pool_c N ninf P src out act) [(src, x)] out (p_C P * p_OH P * p_OW P) (p_C P * p_OH P * p_OW P)
      (tab3 (p_C P) (p_OH P) (p_OW P) (fun f i j => act (np_amax N ninf
        (window (fun a b => at3 (n0 N) (p_IH P) (p_IW P) x f a b) (p_IH P) (p_IW P) (p_size P) (p_stride P) (p_left P) (p_top P) i j)))).
  Proof.
    intros Ho Hs HP Hx. pose proof HP as (HC & HH & HW).
    erewrite tab3_ext; [exact (pool_ok P src out (max_step N) None (fun s => act (max_result N ninf s)) x Ho Hs HP Hx)|auto..].
    intros. cbv beta. rewrite max_result_amax. reflexivity.
  Qed.
  Lemma avg_pool_ok P src out act x : out <> Temp -> src <> Temp -> sizes_ok P -> zlen x = p_C P * p_IH P * p_IW P ->
    layer_ok (avg_pool_c N P src out act) [(src, x)] out (p_C P * p_OH P * p_OW P) (p_C P * p_OH P * p_OW P)
      (tab3 (p_C P) (p_OH P) (p_OW P) (fun f i j => act (np_mean N
        (window (fun a b => at3 (n0 N) (p_IH P) (p_IW P) x f a b) (p_IH P) (p_IW P) (p_size P) (p_stride P) (p_left P) (p_top P) i j)))).
  Proof.
    intros Ho Hs HP Hx. pose proof HP as (HC & HH & HW).
    erewrite tab3_ext; [exact (pool_ok P src out (avg_step N) (n0 N, 0) (fun s => act (ndiv N (fst s) (nofZ N (snd s)))) x Ho Hs HP Hx)|auto..].
    intros. cbv beta. rewrite fold_avg. reflexivity.
  Qed.

  (** Without padding the Python slice is the same list of cells. *)
  Lemma py_window_unpadded P x c i j : p_top P = 0 -> p_left P = 0 -> p_bottom P = 0 -> p_right P = 0 ->
    0 <= i -> 0 <= j -> 0 <= p_stride P ->
    py_window N P x c i j = window (fun a b => at3 (n0 N) (p_IH P) (p_IW P) x c a b) (p_IH P) (p_IW P) (p_size P) (p_stride P) 0 0 i j.
  Proof.
    intros E1 E2 E3 E4 Hi Hj Hs. unfold py_window, all_padded. rewrite E1, E2, E3, E4. cbn [negb andb Z.eqb].
    unfold slice2, window. apply flat_map_ext_in. intros h Hh. apply flat_map_ext_in. intros w Hw. cbv zeta.
    apply in_zrange in Hh. apply in_zrange in Hw.
    assert (0 <= i * p_stride P) by nia. assert (0 <= j * p_stride P) by nia.
    rewrite !Z.sub_0_r.
    destruct (Z.leb_spec 0 (i * p_stride P + h)); [|lia]. destruct (Z.leb_spec 0 (j * p_stride P + w)); [|lia].
    cbn [andb]. rewrite andb_true_r. reflexivity.
  Qed.

  (** np_amax really is a maximum. *)
  Lemma np_amax_spec l : order_laws N -> l <> [] ->
    In (np_amax N ninf l) l /\ forall v, In v l -> nlt N (np_amax N ninf l) v = false.
  Proof.
    intros L Hl. destruct l as [|u l]; [congruence|]. clear Hl. cbn [np_amax].
    revert u. induction l as [|w l IH]; intros u.
    - cbn. split; [auto|]. intros v [->|[]]. apply (lt_irrefl N L).
    - cbn [fold_left]. destruct (IH (np_maximum N u w)) as (I & M).
      assert (MU : forall v, (v = u \/ v = w) -> nlt N (np_maximum N u w) v = false).
      { intros v Hv. unfold np_maximum. destruct (nlt N u w) eqn:E; destruct Hv as [-> | ->]; try apply (lt_irrefl N L).
        - destruct (nlt N w u) eqn:E'; [|reflexivity]. rewrite <- (lt_irrefl N L u). symmetry. eapply (lt_trans N L); eauto.
        - exact E. }
      split.
      + destruct I as [I|I]; [|right; right; exact I]. rewrite <- I. unfold np_maximum. destruct (nlt N u w); [right; left|left]; reflexivity.
      + assert (TR : forall v, (v = u \/ v = w) -> nlt N (fold_left (np_maximum N) l (np_maximum N u w)) v = false).
        { intros v Hv. specialize (MU v Hv). pose proof (M _ (or_introl eq_refl)) as M0.
          destruct (nlt N (fold_left (np_maximum N) l (np_maximum N u w)) v) eqn:E; [|reflexivity].
          destruct (nlt N v (np_maximum N u w)) eqn:E2.
          - rewrite (lt_trans N L _ _ _ E E2) in M0. discriminate.
          - rewrite <- (lt_total N L _ _ MU E2) in E. congruence. }
        intros v [->|[->|Hv]]; [apply TR; auto..|]. apply M. right. exact Hv.
  Qed.
End CHW.
