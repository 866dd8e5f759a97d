(** * Proofs about the debug mode's texts (Debug.v). *)
From Coq Require Import String Ascii.
From Coq Require Import ZArith List Lia Bool Sorted Permutation.
Import ListNotations.
Open Scope list_scope.
Open Scope Z_scope.
From Verif Require Import CMem Tensor Graph Net Movement HexLit HexLitProofs Compare CompareProofs Debug.

Definition unbroken (t : text) : Prop := Forall (fun c => blank c = false) t.
Lemma digit_unbroken c : is_dec c = true -> blank c = false.
Proof.
  unfold is_dec, digit_of, blank. set (n := Z.of_nat (nat_of_ascii c)). intros H.
  destruct ((48 <=? n) && (n <=? 57)) eqn:E1; [apply andb_true_iff in E1; destruct E1 as (A & B); apply Z.leb_le in A, B; apply orb_false_iff; split; [apply Z.eqb_neq; lia|apply andb_false_iff; right; apply Z.leb_gt; lia]|].
  destruct ((97 <=? n) && (n <=? 102)) eqn:E2; [exfalso; apply Z.ltb_lt in H; apply andb_true_iff in E2; destruct E2 as (A & B); apply Z.leb_le in A, B; lia|].
  destruct ((65 <=? n) && (n <=? 70)) eqn:E3; [exfalso; apply Z.ltb_lt in H; apply andb_true_iff in E3; destruct E3 as (A & B); apply Z.leb_le in A, B; lia|discriminate].
Qed.
Lemma str_digits n : Forall (fun c => is_dec c = true) (str n).
Proof. apply dec_digits_dec. Qed.
Lemma str_unbroken n : unbroken (str n).
Proof. eapply Forall_impl; [|apply str_digits]. intros c. apply digit_unbroken. Qed.
Lemma str_nonempty n : str n <> [].
Proof. unfold str. cbn [dec_digits]. intros E. apply app_eq_nil in E. destruct E. discriminate. Qed.
Lemma py_int_str n : 0 <= n -> py_int (str n) = Some n.
Proof.
  intros H. unfold py_int. destruct (str n) eqn:E; [exfalso; exact (str_nonempty n E)|]. rewrite <- E.
  replace (forallb is_dec (str n)) with true by (symmetry; apply forallb_forall; intros c Hc; pose proof (str_digits n) as F; rewrite Forall_forall in F; apply F; exact Hc).
  f_equal. apply dec_digits_number. split; [exact H|]. rewrite Nat2Z.inj_succ, Z2Nat.id by exact H.
  apply Z.lt_le_trans with (10 ^ n); [apply Z.pow_gt_lin_r; lia|apply Z.pow_le_mono_r; lia].
Qed.
Lemma split_last t : unbroken t -> split_on " " t = [t].
Proof.
  intros F. induction F as [|c t E F IH]; [reflexivity|]. cbn [split_on]. destruct (Ascii.eqb_spec c " ") as [->|N]; [discriminate E|].
  rewrite IH. reflexivity.
Qed.
Lemma key_label name n : unbroken name -> key (label name n) = Some (Z.of_nat n).
Proof.
  intros U. unfold key, label. rewrite split_token by exact U. rewrite split_last by apply str_unbroken. cbn [last]. apply py_int_str. lia.
Qed.

(** ** Lines. *)
Lemma file_line l r : Forall (fun c => c <> newline) l -> file_lines (l ++ newline :: r) = (l ++ [newline]) :: file_lines r.
Proof.
  intros F. induction F as [|c l N F IH]; cbn [Datatypes.app file_lines].
  - reflexivity.
  - destruct (Ascii.eqb_spec c newline) as [->|_]; [congruence|]. rewrite IH. reflexivity.
Qed.
Lemma unbroken_lines t : unbroken t -> Forall (fun c => c <> newline) t.
Proof. apply Forall_impl. intros c E ->. discriminate E. Qed.
Lemma space_line : (" "%char <> newline).
Proof. discriminate. Qed.

Section Texts.
  Context {V : Type} (z : V) (name : nat -> text) (channels : nat -> option (Z * Z * Z)) (fmt : V -> text) (parse : text -> option V).
  Hypothesis NM : forall n, unbroken (name n).
  Hypothesis CH : forall n C H W, channels n = Some (C, H, W) -> 0 <= C /\ 0 <= H /\ 0 <= W.
  Definition survives (v : V) : Prop := fmt v <> [] /\ unbroken (fmt v) /\ parse (fmt v) = Some v.
  Definition header_words (n : nat) : list text :=
    [name n; str (Z.of_nat n)] ++ match channels n with Some (C, H, W) => [["1"%char]; str C; str H; str W] | None => [["0"%char]; []; []; []] end.
  Lemma unbroken1 c : blank c = false -> unbroken [c].
  Proof. intros E. constructor; [exact E|constructor]. Qed.
  Lemma header_line n r : file_lines (header name channels n ++ r) = header name channels n :: file_lines r.
  Proof.
    unfold header. destruct (channels n) as [((C & H) & W)|].
    - set (l := name n ++ " "%char :: str (Z.of_nat n) ++ " "%char :: "1"%char :: " "%char :: str C ++ " "%char :: str H ++ " "%char :: str W).
      assert (E : name n ++ " "%char :: str (Z.of_nat n) ++ " "%char :: ("1"%char :: " "%char :: str C ++ " "%char :: str H ++ " "%char :: str W) ++ [newline] = l ++ [newline]).
      { unfold l. rewrite <- !app_assoc. cbn [Datatypes.app]. rewrite <- !app_assoc. cbn [Datatypes.app]. rewrite <- !app_assoc. cbn [Datatypes.app]. rewrite <- ?app_assoc. reflexivity. }
      rewrite E, <- app_assoc. cbn [Datatypes.app]. apply file_line. unfold l.
      apply Forall_app. split; [apply unbroken_lines, NM|]. constructor; [discriminate|]. apply Forall_app. split; [apply unbroken_lines, str_unbroken|].
      constructor; [discriminate|]. constructor; [discriminate|]. constructor; [discriminate|].
      apply Forall_app. split; [apply unbroken_lines, str_unbroken|]. constructor; [discriminate|]. apply Forall_app. split; [apply unbroken_lines, str_unbroken|]. constructor; [discriminate|apply unbroken_lines, str_unbroken].
    - set (l := name n ++ " "%char :: str (Z.of_nat n) ++ " "%char :: "0"%char :: [" "; " "; " "]%char).
      assert (E : name n ++ " "%char :: str (Z.of_nat n) ++ " "%char :: ("0"%char :: [" "; " "; " "]%char) ++ [newline] = l ++ [newline]).
      { unfold l. rewrite <- !app_assoc. cbn [Datatypes.app]. rewrite <- !app_assoc. reflexivity. }
      rewrite E, <- app_assoc. cbn [Datatypes.app]. apply file_line. unfold l.
      apply Forall_app. split; [apply unbroken_lines, NM|]. constructor; [discriminate|]. apply Forall_app. split; [apply unbroken_lines, str_unbroken|].
      repeat (constructor; [discriminate|]). constructor.
  Qed.
  Lemma remove_last_app l t : remove_last 1 (l ++ [t]) = l.
  Proof. cbn [remove_last]. apply removelast_last. Qed.
  Lemma header_split n : split_on " " (remove_last 1 (header name channels n)) = header_words n.
  Proof.
    unfold header, header_words.
    replace (remove_last 1 _) with (name n ++ " "%char :: str (Z.of_nat n) ++ " "%char ::
      match channels n with Some (C, H, W) => "1"%char :: " "%char :: str C ++ " "%char :: str H ++ " "%char :: str W | None => "0"%char :: [" "; " "; " "]%char end).
    - rewrite split_token by apply NM. rewrite split_token by apply str_unbroken. cbn [Datatypes.app]. f_equal. f_equal.
      destruct (channels n) as [((C & H) & W)|].
      + change ("1"%char :: " "%char :: ?r) with (["1"%char] ++ " "%char :: r).
        change ("1"%char :: " "%char :: str C ++ " "%char :: str H ++ " "%char :: str W) with (["1"%char] ++ " "%char :: str C ++ " "%char :: str H ++ " "%char :: str W).
        rewrite split_token by (apply unbroken1; reflexivity). rewrite split_token by apply str_unbroken. rewrite split_token by apply str_unbroken. rewrite split_last by apply str_unbroken. reflexivity.
      + reflexivity.
    - symmetry. match goal with |- remove_last 1 (?a ++ " "%char :: ?b ++ " "%char :: ?c ++ [newline]) = _ => replace (a ++ " "%char :: b ++ " "%char :: c ++ [newline]) with ((a ++ " "%char :: b ++ " "%char :: c) ++ [newline]) by (rewrite <- app_assoc; cbn [Datatypes.app]; rewrite <- app_assoc; reflexivity) end.
      apply remove_last_app.
  Qed.
  Lemma read_header_ok n (r : @reading V) : exists sh,
    read_header (header name channels n) r = Some (mkReading (list_result r) (targets_read r ++ [label (name n) n]) (match channels n with Some _ => true | None => false end) sh) /\
    (forall c, channels n = Some c -> sh = c).
  Proof.
    unfold read_header. rewrite header_split. unfold header_words. destruct (channels n) as [((C & H) & W)|] eqn:E; cbn [Datatypes.app nth_error bind].
    - destruct (CH n C H W E) as (A1 & A2 & A3). change (py_int ["1"%char]) with (Some 1). cbn [bind]. change (1 =? 0) with false. cbv iota.
      rewrite !py_int_str by assumption. cbn [bind]. eexists. split; [reflexivity|]. intros c Ec. congruence.
    - change (py_int ["0"%char]) with (Some 0). cbn [bind]. change (0 =? 0) with true. cbv iota. eexists. split; [reflexivity|]. intros c Ec. discriminate.
  Qed.
  Lemma values_join vs : vs <> [] -> flat_map (fun v => fmt v ++ [" "%char]) vs = join (map fmt vs) ++ [" "%char].
  Proof.
    intros N. induction vs as [|v vs IH]; [congruence|]. destruct vs as [|v' vs]; [cbn; rewrite app_nil_r; reflexivity|].
    cbn [flat_map]. cbn [flat_map] in IH. rewrite IH by discriminate. cbn [map join]. rewrite <- !app_assoc. reflexivity.
  Qed.
  Lemma values_line vs r : vs <> [] -> Forall survives vs -> file_lines (value_line fmt vs ++ r) = value_line fmt vs :: file_lines r.
  Proof.
    intros N F. unfold value_line. destruct vs as [|v0 vs0]; [congruence|]. set (vs := v0 :: vs0) in *. rewrite <- app_assoc. cbn [Datatypes.app]. apply file_line.
    clear N. clearbody vs. induction F as [|v vs (N1 & U & P) F IH]; [constructor|]. cbn [flat_map]. apply Forall_app. split; [|exact IH]. apply Forall_app. split; [apply unbroken_lines; exact U|]. constructor; [discriminate|constructor].
  Qed.
  Lemma split_join ts : ts <> [] -> Forall unbroken ts -> split_on " " (join ts) = ts.
  Proof.
    intros N F. induction F as [|t ts U F IH]; [congruence|]. destruct ts as [|t' ts]; [cbn [join]; apply split_last; exact U|].
    change (join (t :: t' :: ts)) with (t ++ " "%char :: join (t' :: ts)). rewrite split_token by exact U. rewrite IH by discriminate. reflexivity.
  Qed.
  Lemma parse_all vs : Forall survives vs -> all_some (map parse (map fmt vs)) = Some vs.
  Proof. intros F. induction F as [|v vs (N & U & P) F IH]; [reflexivity|]. cbn [map all_some]. rewrite P. cbn [bind]. rewrite IH. reflexivity. Qed.
  Lemma read_values_ok n vs (r : @reading V) : vs <> [] -> Forall survives vs ->
    to_transpose r = (match channels n with Some _ => true | None => false end) -> (forall c, channels n = Some c -> shape r = c) ->
    (forall C H W, channels n = Some (C, H, W) -> zlen vs = C * H * W) ->
    read_values z parse (value_line fmt vs) r = Some (mkReading (list_result r ++ [flat z channels n vs]) (targets_read r) (to_transpose r) (shape r)).
  Proof.
    intros N F ET ES SZ. unfold read_values.
    assert (EL : split_on " " (remove_last 2 (value_line fmt vs)) = map fmt vs).
    { unfold value_line. rewrite values_join by exact N. destruct vs as [|v0 vs0] eqn:EV; [congruence|]. rewrite <- EV in *.
      replace (remove_last 2 _) with (join (map fmt vs)).
      - apply split_join; [subst vs; discriminate|]. apply Forall_map. eapply Forall_impl; [|exact F]. intros v (_ & U & _). exact U.
      - cbn [remove_last]. rewrite removelast_last, removelast_last. reflexivity. }
    rewrite EL, parse_all by exact F. cbn [bind]. rewrite ET. unfold flat. destruct (channels n) as [((C & H) & W)|] eqn:E.
    - rewrite (ES _ eq_refl). rewrite (SZ C H W eq_refl), Z.eqb_refl. reflexivity.
    - reflexivity.
  Qed.

  (** ** The whole file. *)
  Definition printable (e : nat * list V) : Prop :=
    snd e <> [] /\ Forall survives (snd e) /\ forall C H W, channels (fst e) = Some (C, H, W) -> zlen (snd e) = C * H * W.
  Lemma read_all printed : forall i nb (r : @reading V), Forall printable printed -> 0 <= i -> i mod 2 = 0 -> i + 2 * zlen printed = 2 * nb ->
    exists r', read_lines z parse i nb (file_lines (debug_file name channels fmt printed)) r = Some r' /\
      list_result r' = list_result r ++ map (fun e => flat z channels (fst e) (snd e)) printed /\
      targets_read r' = targets_read r ++ map (fun e => label (name (fst e)) (fst e)) printed.
  Proof.
    induction printed as [|(n & vs) printed IH]; intros i nb r F HI EV EN.
    - exists r. cbn. rewrite !app_nil_r. auto.
    - inversion F as [|? ? P F']; subst. destruct P as (N & S & SZ). cbn [fst snd] in *.
      unfold debug_file. cbn [flat_map fst snd]. rewrite <- app_assoc. rewrite header_line. rewrite values_line by assumption.
      cbn [read_lines]. rewrite EV. change (0 =? 0) with true. cbv iota.
      destruct (read_header_ok n r) as (sh & ER & ES). rewrite ER. cbn [bind].
      assert (NE : zlen ((n, vs) :: printed) = 1 + zlen printed) by (unfold zlen; cbn [List.length]; lia). pose proof (zlen_nonneg printed) as ZP.
      replace (i =? 2 * nb - 1) with false by (symmetry; apply Z.eqb_neq; intros X; rewrite X in EV; replace (2 * nb - 1) with (1 + (nb - 1) * 2) in EV by lia; rewrite Z_mod_plus_full in EV; discriminate).
      replace ((i + 1) mod 2) with 1.
      2:{ rewrite (Z.div_mod i 2) by lia. rewrite EV. replace (2 * (i / 2) + 0 + 1) with (1 + (i / 2) * 2) by lia. rewrite Z_mod_plus_full. reflexivity. }
      change (1 =? 0) with false. cbv iota.
      rewrite (read_values_ok n vs _ N S); [|reflexivity|exact ES|exact SZ]. cbn [bind list_result targets_read to_transpose shape].
      destruct (Z.eqb_spec (i + 1) (2 * nb - 1)) as [LE|NL].
      + assert (printed = []) by (destruct printed; [reflexivity|unfold zlen in *; cbn [List.length] in *; lia]). subst printed.
        eexists. split; [reflexivity|]. cbn [list_result targets_read map]. auto.
      + change (flat_map (fun e => header name channels (fst e) ++ value_line fmt (snd e)) printed) with (debug_file name channels fmt printed).
        match goal with |- context [read_lines z parse _ nb _ ?r1] => destruct (IH (i + 1 + 1) nb r1 F') as (r' & E1 & E2 & E3) end.
        * lia.
        * replace (i + 1 + 1) with (i + 1 * 2) by lia. rewrite Z_mod_plus_full. exact EV.
        * lia.
        * exists r'. split; [exact E1|]. cbn [list_result targets_read] in E2, E3. rewrite E2, E3. cbn [map fst snd]. rewrite <- !app_assoc. auto.
  Qed.

  (** ** The dictionary and its sorting. *)
  Definition item (f : nat -> list V) (n : nat) : Z * (list V * text) := (Z.of_nat n, (f n, label (name n) n)).
  Lemma set_item_new k (e : list V * text) d : ~ In k (map fst d) -> set_item k e d = d ++ [(k, e)].
  Proof.
    induction d as [|(k' & e') d IH]; intros N; [reflexivity|]. cbn [set_item]. destruct (Z.eqb_spec k k') as [->|_]; [exfalso; apply N; left; reflexivity|].
    rewrite IH; [reflexivity|]. intros H. apply N. right. exact H.
  Qed.
  Lemma dictionary_ok f ns : forall d, NoDup (map fst d ++ map Z.of_nat ns) ->
    dictionary (map f ns) (map (fun n => label (name n) n) ns) d = Some (d ++ map (item f) ns).
  Proof.
    induction ns as [|n ns IH]; intros d ND; [cbn; rewrite app_nil_r; reflexivity|]. cbn [map dictionary]. rewrite key_label by apply NM. cbn [bind].
    cbn [map] in ND. rewrite set_item_new.
    - rewrite IH; [rewrite <- app_assoc; reflexivity|]. rewrite map_app. cbn [map fst]. rewrite <- app_assoc. exact ND.
    - intros H. apply NoDup_remove_2 in ND. apply ND. apply in_or_app. left. exact H.
  Qed.
  Lemma insert_items f n ns : insert (item f n) (map (item f) ns) = map (item f) ((fix ins l := match l with [] => [n] | m :: l' => if (n <=? m)%nat then n :: l else m :: ins l' end) ns).
  Proof.
    induction ns as [|m ns IH]; [reflexivity|]. cbn [map insert]. cbn [item fst]. destruct (Nat.leb_spec n m) as [L|L].
    - replace (Z.of_nat n <=? Z.of_nat m) with true by (symmetry; apply Z.leb_le; lia). reflexivity.
    - replace (Z.of_nat n <=? Z.of_nat m) with false by (symmetry; apply Z.leb_gt; lia). fold (item f m). rewrite IH. reflexivity.
  Qed.
  Lemma sorted_items f ns : NoDup ns -> exists ns', sort_items (map (item f) ns) = map (item f) ns' /\ Permutation ns ns' /\ StronglySorted lt ns'.
  Proof.
    intros ND. induction ND as [|n ns NI ND (ns' & E & P & S)]; [exists []; repeat split; constructor|].
    cbn [map sort_items fold_right]. unfold sort_items in E. rewrite E, insert_items. eexists. split; [reflexivity|]. clear E.
    assert (NI' : ~ In n ns') by (intros H; apply NI; apply (Permutation_in n (Permutation_sym P)); exact H). clear NI ND.
    assert (G : Permutation (n :: ns') ((fix ins l := match l with [] => [n] | m :: l' => if (n <=? m)%nat then n :: l else m :: ins l' end) ns') /\ StronglySorted lt ((fix ins l := match l with [] => [n] | m :: l' => if (n <=? m)%nat then n :: l else m :: ins l' end) ns')).
    { clear P. induction S as [|m l S IH F]; [split; [reflexivity|repeat constructor]|]. destruct (Nat.leb_spec n m) as [L|L].
      - assert (n < m)%nat by (destruct (Nat.eq_dec n m) as [->|]; [exfalso; apply NI'; left; reflexivity|lia]).
        split; [reflexivity|]. constructor; [constructor; assumption|]. constructor; [assumption|]. eapply Forall_impl; [|exact F]. intros k Hk. cbn beta in *. lia.
      - destruct IH as (P1 & S1); [intros H; apply NI'; right; exact H|]. split; [rewrite perm_swap; constructor; exact P1|]. constructor; [exact S1|].
        rewrite Forall_forall in *. intros k Hk. apply (Permutation_in _ (Permutation_sym P1)) in Hk. destruct Hk as [<-|Hk]; [lia|apply F; exact Hk]. }
    destruct G as (G1 & G2). split; [|exact G2]. rewrite <- G1. constructor. exact P.
  Qed.
  Lemma reorder_ok (f : nat -> list V) ns : NoDup ns -> exists ns', Permutation ns ns' /\ StronglySorted lt ns' /\
    reorder_outputs (map f ns) (map (fun n => label (name n) n) ns) = Some (map f ns', map (fun n => label (name n) n) ns').
  Proof.
    intros ND. destruct (sorted_items f ns ND) as (ns' & E & P & S). exists ns'. split; [exact P|]. split; [exact S|].
    unfold reorder_outputs. rewrite dictionary_ok by (cbn [map Datatypes.app]; apply FinFun.Injective_map_NoDup; [intros a b H; lia|exact ND]). cbn [bind Datatypes.app]. rewrite E, !map_map. reflexivity.
  Qed.
  Lemma sorted_unique (a b : list nat) : Permutation a b -> StronglySorted lt a -> StronglySorted lt b -> a = b.
  Proof.
    revert b. induction a as [|x a IH]; intros b P SA SB.
    - apply Permutation_nil in P. symmetry. exact P.
    - inversion SA as [|? ? SA' FA]; subst. destruct b as [|y b]; [apply Permutation_sym, Permutation_nil in P; discriminate|]. inversion SB as [|? ? SB' FB]; subst.
      rewrite Forall_forall in FA, FB.
      assert (x = y).
      { pose proof (Permutation_in x P (or_introl eq_refl)) as [->|HX]; [reflexivity|]. pose proof (Permutation_in y (Permutation_sym P) (or_introl eq_refl)) as [->|HY]; [reflexivity|].
        apply FB in HX. apply FA in HY. lia. }
      subst y. f_equal. apply IH; [eapply Permutation_cons_inv; exact P|assumption|assumption].
  Qed.
End Texts.
