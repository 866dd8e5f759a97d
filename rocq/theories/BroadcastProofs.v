From Coq Require Import ZArith List Lia Bool.
Import ListNotations.
Open Scope Z_scope.
From Verif Require Import CMem Tensor Num Activation Broadcast.

Section Spec.
  Context (N : num).
  Notation V := (T N).
  (** ** Specification.  [combine k vs c]: the operator applied from left to
      right to the operand elements [vs], then to the constant's element. *)
  Definition combine (k : bkind) (vs : list V) (c : option V) : V :=
    match vs with
    | [] => n0 N
    | v :: vs' =>
        let r := fold_left (bop N k) vs' v in
        match k with
        | BAvg => ndiv N r (nofZ N (zlen vs))
        | BMax | BMin => r
        | _ => match c with Some c => bop N k r c | None => r end
        end
    end.
  (** Element (f,i,j) of the result: [bat] reads the operand at (f,i,j), with
      coordinate 0 along the operand's dimensions of size 1. *)
  Definition broadcast_result (k : bkind) (ts : list (tensor N)) (cst : option (tensor N)) (O : shape) (act : V -> V) : list V :=
    map act (tab3 (sC O) (sH O) (sW O) (fun f i j =>
      combine k (map (fun t => bat N t f i j) ts) (option_map (fun t => bat N t f i j) cst))).
End Spec.

Section Proofs.
  Context (N : num).
  Notation V := (T N).

  Lemma pick_mod a o k : fits_dim a o -> 0 <= k < o -> k mod a = pick a k.
  Proof.
    intros F H. unfold pick. destruct (Z.eqb_spec a 1) as [->|]; [apply Z.mod_1_r|].
    destruct F as [F|F]; [lia|]. subst. apply Z.mod_small. lia.
  Qed.
  Lemma pick_range a o k : fits_dim a o -> 0 < a -> 0 <= k < o -> 0 <= pick a k < a.
  Proof. intros F Ha H. unfold pick. destruct (Z.eqb_spec a 1); destruct F; lia. Qed.

  Lemma bidx_pick s O f i j : fits s O -> 0 <= f < sC O -> 0 <= i < sH O -> 0 <= j < sW O ->
    bidx s f i j = idx3 (sH s) (sW s) (pick (sC s) f) (pick (sH s) i) (pick (sW s) j).
  Proof.
    intros (F1 & F2 & F3) Hf Hi Hj. unfold bidx, idx3.
    rewrite (pick_mod _ _ _ F1 Hf), (pick_mod _ _ _ F2 Hi), (pick_mod _ _ _ F3 Hj). reflexivity.
  Qed.

  Lemma bread_ok (m : mem V) b t O f i j : fits (fst t) O -> positive (fst t) -> well_shaped N t ->
    holds m b (snd t) -> 0 <= f < sC O -> 0 <= i < sH O -> 0 <= j < sW O ->
    bread N m f i j (b, fst t) = Some (bat N t f i j).
  Proof.
    intros F (P1 & P2 & P3) W Hh Hf Hi Hj. unfold bread. cbn [fst snd].
    rewrite (bidx_pick _ _ _ _ _ F Hf Hi Hj). destruct F as (F1 & F2 & F3).
    eapply rd_at3; eauto; eapply pick_range; eauto.
  Qed.

  Definition op_src (o : bname * tensor N) : bname * list V := (fst o, snd (snd o)).
  Definition op_shape (o : bname * tensor N) : operand := (fst o, fst (snd o)).

  Lemma read_all_ok (m : mem V) (ops : list (bname * tensor N)) O f i j :
    Forall (fun o => fits (fst (snd o)) O /\ positive (fst (snd o)) /\ well_shaped N (snd o) /\ holds m (fst o) (snd (snd o))) ops ->
    0 <= f < sC O -> 0 <= i < sH O -> 0 <= j < sW O ->
    read_all N m f i j (map op_shape ops) = Some (map (fun o => bat N (snd o) f i j) ops).
  Proof.
    intros F Hf Hi Hj. induction F as [|[b t] ops (F1 & F2 & F3 & F4) _ IH]; [reflexivity|].
    cbn [map read_all]. change (op_shape (b, t)) with (b, fst t). cbn [fst snd] in *.
    rewrite (bread_ok m b t O) by assumption. cbn [bind]. rewrite IH. reflexivity.
  Qed.

  Lemma accumulate_ok op O f i j (ops : list (bname * tensor N)) : 0 <= f < sC O -> 0 <= i < sH O -> 0 <= j < sW O ->
    Forall (fun o => fst o <> Temp) ops -> forall (m : mem V) p v,
    Forall (fun o => fits (fst (snd o)) O /\ positive (fst (snd o)) /\ well_shaped N (snd o) /\ holds m (fst o) (snd (snd o))) ops ->
    0 <= p < zlen (m Temp) -> rd m Temp p = Some v ->
    exists m', accumulate N op f i j p (map op_shape ops) m = Some m' /\
      stores m m' Temp p (fold_left op (map (fun o => bat N (snd o) f i j) ops) v).
  Proof.
    intros Hf Hi Hj HT. induction HT as [|[b t] ops Hb HT IH]; intros m p v F Hp Hv.
    - exists m. split; [reflexivity|]. split; [apply only_refl|]. auto.
    - inversion F as [|o l (F1 & F2 & F3 & F4) FR]; subst. cbn [map accumulate fold_left].
      change (op_shape (b, t)) with (b, fst t). cbn [fst snd] in *.
      rewrite Hv. cbn [bind]. rewrite (bread_ok m b t O) by assumption. cbn [bind].
      destruct (wr_stores m Temp p (op v (bat N t f i j)) Hp) as (m1 & E1 & S1). rewrite E1. cbn [bind].
      destruct S1 as (O1 & R1 & S1).
      destruct (IH m1 p (op v (bat N t f i j))) as (m2 & E2 & S2).
      + eapply Forall_impl; [|apply Forall_and; [exact HT|exact FR]].
        intros [b' t'] (Hb' & G1 & G2 & G3 & G4). cbn [fst snd] in *. split; [exact G1|split; [exact G2|split; [exact G3|]]].
        eapply holds_other; eauto.
      + rewrite (only_zlen m m1 Temp Temp O1). exact Hp.
      + exact R1.
      + exists m2. split; [exact E2|]. eapply stores_trans; [split; [exact O1|split; [exact R1|exact S1]]|exact S2].
  Qed.

  Lemma broadcast_ok k (ops : list (bname * tensor N)) (cst : option (tensor N)) out O act :
    out <> Temp -> ops <> [] -> 0 <= sC O -> 0 <= sH O -> 0 <= sW O ->
    Forall (fun o => fst o <> Temp) ops ->
    Forall (fun t => fits (fst t) O /\ positive (fst t) /\ well_shaped N t) (map snd ops) ->
    (forall c, cst = Some c -> fits (fst c) O /\ positive (fst c) /\ well_shaped N c) ->
    layer_ok (broadcast_c N k (map op_shape ops) cst out O act) (map op_src ops) out
      (sC O * sH O * sW O) (sC O * sH O * sW O) (broadcast_result N k (map snd ops) cst O act).
  Proof.
    intros Ho Hne HC HH HW HT HF Hcst.
    unfold broadcast_c, broadcast_result. apply via_temp_ok; [exact Ho|apply zlen_tab3; assumption|].
    intros m Hm Ht.
    apply fill3_stores; [assumption..|].
    intros f i j m' Hf Hi Hj O'.
    assert (HA : Forall (fun o => fits (fst (snd o)) O /\ positive (fst (snd o)) /\ well_shaped N (snd o) /\ holds m' (fst o) (snd (snd o))) ops).
    { clear - HT HF Hm O'. rewrite Forall_map in Hm, HF. rewrite Forall_forall in *. intros o Ho.
      specialize (HF o Ho). specialize (Hm o Ho). specialize (HT o Ho). destruct HF as (A & B & C).
      split; [exact A|split; [exact B|split; [exact C|]]].
      eapply holds_other; eauto. }
    assert (Hp : 0 <= idx3 (sH O) (sW O) f i j < zlen (m' Temp)).
    { rewrite (only_zlen m m' Temp Temp O'). pose proof (idx3_range _ _ _ _ _ _ Hf Hi Hj). lia. }
    assert (W1 : forall v, exists m2, wr m' Temp (idx3 (sH O) (sW O) f i j) v = Some m2 /\
              stores m' m2 Temp (idx3 (sH O) (sW O) f i j) v) by (intros; apply wr_stores; exact Hp).
    unfold broadcast_body. fold (idx3 (sH O) (sW O) f i j).
    destruct ops as [|[b t] ops]; [congruence|]. clear Hne.
    pose proof (read_all_ok m' ((b, t) :: ops) O f i j HA Hf Hi Hj) as HR.
    assert (ZL : zlen (map op_shape ((b, t) :: ops)) = zlen (bat N t f i j :: map (fun o => bat N (snd o) f i j) ops)).
    { unfold zlen. cbn [map length]. rewrite !map_length. reflexivity. }
    assert (MM : map (fun t0 => bat N t0 f i j) (map snd ((b, t) :: ops)) = bat N t f i j :: map (fun o => bat N (snd o) f i j) ops).
    { cbn [map]. rewrite map_map. reflexivity. }
    rewrite MM. unfold combine. 
    assert (Oth : forall kk, (kk = BAdd \/ kk = BSub \/ kk = BMul \/ kk = BDiv) ->
       exists m2 : mem V,
  (vs <- read_all N m' f i j (map op_shape ((b, t) :: ops));;
   match vs with
   | [] => None
   | v :: vs' =>
       match cst with
       | Some (s, w) => c <- rdl w (bidx s f i j);; wr m' Temp (idx3 (sH O) (sW O) f i j) (bop N kk (fold_left (bop N kk) vs' v) c)
       | None => wr m' Temp (idx3 (sH O) (sW O) f i j) (fold_left (bop N kk) vs' v)
       end
   end) = Some m2 /\
  stores m' m2 Temp (idx3 (sH O) (sW O) f i j)
    match option_map (fun t0 : tensor N => bat N t0 f i j) cst with
    | Some c => bop N kk (fold_left (bop N kk) (map (fun o => bat N (snd o) f i j) ops) (bat N t f i j)) c
    | None => fold_left (bop N kk) (map (fun o => bat N (snd o) f i j) ops) (bat N t f i j)
    end).
    { intros kk _. rewrite HR. cbn [bind map snd]. destruct cst as [[s w]|]; [|apply W1].
      destruct (Hcst _ eq_refl) as (F1 & (P1 & P2 & P3) & F3). cbn [fst snd] in *.
      rewrite (bidx_pick s O) by assumption. pose proof F1 as (G1 & G2 & G3).
      rewrite (rdl_at3 (n0 N) w (sC s) (sH s) (sW s) (pick (sC s) f) (pick (sH s) i) (pick (sW s) j));
        [|exact F3|eapply pick_range; eauto|eapply pick_range; eauto|eapply pick_range; eauto|reflexivity].
      cbn [bind option_map]. apply W1. }
    assert (MX : forall kk, exists m2 : mem V,
      (match map op_shape ((b, t) :: ops) with [] => None | o :: ops' =>
         v <- bread N m' f i j o ;; m1 <- wr m' Temp (idx3 (sH O) (sW O) f i j) v ;;
         accumulate N (bop N kk) f i j (idx3 (sH O) (sW O) f i j) ops' m1 end) = Some m2 /\
      stores m' m2 Temp (idx3 (sH O) (sW O) f i j)
        (fold_left (bop N kk) (map (fun o => bat N (snd o) f i j) ops) (bat N t f i j))).
    { intros kk. inversion HA as [|o l (F1 & F2 & F3 & F4) FR]; subst. inversion HT as [|o l HT1 HT2]; subst.
      cbn [map]. change (op_shape (b, t)) with (b, fst t). cbn [fst snd] in *.
      rewrite (bread_ok m' b t O) by assumption. cbn [bind].
      destruct (W1 (bat N t f i j)) as (m1 & E1 & O1 & R1 & S1). rewrite E1. cbn [bind].
      destruct (accumulate_ok (bop N kk) O f i j ops Hf Hi Hj HT2 m1 (idx3 (sH O) (sW O) f i j) (bat N t f i j)) as (m2 & E2 & S2).
      - eapply Forall_impl; [|apply Forall_and; [exact HT2|exact FR]].
        intros [b' t'] (Hb' & G1 & G2 & G3 & G4). cbn [fst snd] in *. split; [exact G1|split; [exact G2|split; [exact G3|]]]. eapply holds_other; eauto.
      - rewrite (only_zlen m' m1 Temp Temp O1). exact Hp.
      - exact R1.
      - exists m2. split; [exact E2|]. eapply stores_trans; [split; [exact O1|split; [exact R1|exact S1]]|exact S2]. }
    destruct k; try (apply Oth; tauto); try (apply MX).
    rewrite HR. cbn [bind map snd]. cbn [map] in ZL. rewrite ZL. apply W1.
  Qed.

  (** ** Python side *)
  Lemma bdim_spec a b o : fits_dim a o -> fits_dim b o ->
    exists s, bdim a b = Some s /\ fits_dim s o /\ fits_dim a s /\ fits_dim b s /\ (a = o \/ b = o -> s = o) /\ (s = a \/ s = b).
  Proof.
    unfold bdim, fits_dim. intros Fa Fb.
    destruct (Z.eqb_spec a b); [exists a; repeat split; try lia; subst; tauto|].
    destruct (Z.eqb_spec a 1); [exists b; repeat split; try lia; tauto|].
    destruct (Z.eqb_spec b 1); [exists a; repeat split; try lia; tauto|]. exfalso. lia.
  Qed.
  Lemma bshape_spec s t O : fits s O -> fits t O ->
    exists r, bshape s t = Some r /\ fits r O /\ fits s r /\ fits t r /\
      (sC s = sC O \/ sC t = sC O -> sC r = sC O) /\
      (sH s = sH O \/ sH t = sH O -> sH r = sH O) /\ (sW s = sW O \/ sW t = sW O -> sW r = sW O) /\
      (positive s -> positive t -> positive r).
  Proof.
    intros (A1 & A2 & A3) (B1 & B2 & B3). unfold bshape.
    destruct (bdim_spec _ _ _ A1 B1) as (c & Ec & X1 & Y1 & Z1 & M1 & K1).
    destruct (bdim_spec _ _ _ A2 B2) as (h & Eh & X2 & Y2 & Z2 & M2 & K2).
    destruct (bdim_spec _ _ _ A3 B3) as (w & Ew & X3 & Y3 & Z3 & M3 & K3).
    rewrite Ec, Eh, Ew. cbn [bind]. eexists. split; [reflexivity|].
    split; [split; [|split]; assumption|]. split; [split; [|split]; assumption|]. split; [split; [|split]; assumption|].
    split; [exact M1|]. split; [exact M2|]. split; [exact M3|].
    intros (U1 & U2 & U3) (V1 & V2 & V3). unfold positive. cbn. intuition (try lia).
  Qed.
  Lemma pick_pick a s k : fits_dim a s -> pick a (pick s k) = pick a k.
  Proof. unfold pick. intros F. destruct (Z.eqb_spec a 1); [reflexivity|]. destruct (Z.eqb_spec s 1); destruct F; lia. Qed.
  Lemma bat_pick t s f i j : fits (fst t) s -> bat N t (pick (sC s) f) (pick (sH s) i) (pick (sW s) j) = bat N t f i j.
  Proof. intros (A & B & C). unfold bat. rewrite !pick_pick by assumption. reflexivity. Qed.
  Lemma bat_tab s g O f i j : fits s O -> positive s -> 0 <= f < sC O -> 0 <= i < sH O -> 0 <= j < sW O ->
    bat N (s, tab3 (sC s) (sH s) (sW s) g) f i j = g (pick (sC s) f) (pick (sH s) i) (pick (sW s) j).
  Proof.
    intros (A & B & C) (P1 & P2 & P3) Hf Hi Hj. unfold bat. cbn [fst snd].
    rewrite at3_tab3; [reflexivity| | |]; eapply pick_range; eauto.
  Qed.

  Lemma np_op_spec op x y O : fits (fst x) O -> fits (fst y) O -> positive (fst x) -> positive (fst y) ->
    exists r, np_op N op x y = Some r /\ fits (fst r) O /\ positive (fst r) /\
      well_shaped N r /\ bshape (fst x) (fst y) = Some (fst r) /\
      (sC (fst x) = sC O \/ sC (fst y) = sC O -> sC (fst r) = sC O) /\
      (sH (fst x) = sH O \/ sH (fst y) = sH O -> sH (fst r) = sH O) /\
      (sW (fst x) = sW O \/ sW (fst y) = sW O -> sW (fst r) = sW O) /\
      (forall f i j, 0 <= f < sC O -> 0 <= i < sH O -> 0 <= j < sW O ->
         bat N r f i j = op (bat N x f i j) (bat N y f i j)).
  Proof.
    intros Fx Fy Px Py. destruct (bshape_spec _ _ _ Fx Fy) as (s & Es & Fs & F1 & F2 & M1 & M2 & M3 & P).
    unfold np_op. rewrite Es. cbn [bind]. eexists. split; [reflexivity|]. cbn [fst snd].
    specialize (P Px Py). split; [exact Fs|]. split; [exact P|]. split; [|split; [reflexivity|split; [exact M1|split; [exact M2|split; [exact M3|]]]]].
    - unfold well_shaped. cbn [fst snd]. destruct P as (? & ? & ?). apply zlen_tab3; lia.
    - intros f i j Hf Hi Hj. rewrite (bat_tab s _ O) by assumption. rewrite !bat_pick by assumption. reflexivity.
  Qed.

  Lemma shape_eqb_eq s t : shape_eqb s t = true <-> s = t.
  Proof.
    unfold shape_eqb. rewrite !andb_true_iff, !Z.eqb_eq. destruct s, t; cbn. split; [intros ((-> & ->) & ->); reflexivity|].
    intros E; inversion E; auto.
  Qed.
  Lemma shape_ext s t : sC s = sC t -> sH s = sH t -> sW s = sW t -> s = t.
  Proof. destruct s, t; cbn; congruence. Qed.

  (** Folding over operands, for the operators that may enlarge the accumulator. *)
  Lemma np_fold_op op O xs : Forall (fun t => fits (fst t) O /\ positive (fst t)) xs -> forall x,
    fits (fst x) O -> positive (fst x) -> well_shaped N x ->
    exists r, np_fold N (np_op N op) x xs = Some r /\ fits (fst r) O /\ positive (fst r) /\ well_shaped N r /\
      (In (sC O) (sC (fst x) :: map (fun t => sC (fst t)) xs) -> sC (fst r) = sC O) /\
      (In (sH O) (sH (fst x) :: map (fun t => sH (fst t)) xs) -> sH (fst r) = sH O) /\
      (In (sW O) (sW (fst x) :: map (fun t => sW (fst t)) xs) -> sW (fst r) = sW O) /\
      (forall f i j, 0 <= f < sC O -> 0 <= i < sH O -> 0 <= j < sW O ->
         bat N r f i j = fold_left op (map (fun t => bat N t f i j) xs) (bat N x f i j)).
  Proof.
    induction 1 as [|y xs (Fy & Py) _ IH]; intros x Fx Px Wx.
    - exists x. cbn [np_fold map fold_left In]. repeat (split; [solve [reflexivity|assumption|intuition congruence]|]).
      reflexivity.
    - destruct (np_op_spec op x y O Fx Fy Px Py) as (r1 & E1 & F1 & P1 & W1 & _ & M1 & M2 & M3 & B1).
      destruct (IH r1 F1 P1 W1) as (r & E & F & P & W & I1 & I2 & I3 & B).
      exists r. cbn [np_fold]. rewrite E1. cbn [bind]. split; [exact E|]. split; [exact F|]. split; [exact P|]. split; [exact W|].
      split; [|split; [|split]].
      + cbn [map In]. intros HI. apply I1. cbn [In]. intuition.
      + cbn [map In]. intros HI. apply I2. cbn [In]. intuition.
      + cbn [map In]. intros HI. apply I3. cbn [In]. intuition.
      + intros f i j Hf Hi Hj. rewrite B by assumption. cbn [map fold_left]. rewrite B1 by assumption. reflexivity.
  Qed.

  (** Folding in place, when the first operand already has the full shape. *)
  Lemma np_fold_iop op O xs : positive O -> Forall (fun t => fits (fst t) O /\ positive (fst t)) xs -> forall x,
    fst x = O -> well_shaped N x ->
    exists r, np_fold N (np_iop N op) x xs = Some r /\ fst r = O /\ well_shaped N r /\
      (forall f i j, 0 <= f < sC O -> 0 <= i < sH O -> 0 <= j < sW O ->
         bat N r f i j = fold_left op (map (fun t => bat N t f i j) xs) (bat N x f i j)).
  Proof.
    intros PO. induction 1 as [|y xs (Fy & Py) _ IH]; intros x Ex Wx.
    - exists x. repeat split; auto.
    - assert (Fx : fits (fst x) O) by (rewrite Ex; unfold fits, fits_dim; auto).
      assert (Px : positive (fst x)) by (rewrite Ex; exact PO).
      destruct (np_op_spec op x y O Fx Fy Px Py) as (r1 & E1 & F1 & P1 & W1 & _ & M1 & M2 & M3 & B1).
      assert (S1 : fst r1 = O). { apply shape_ext; [apply M1|apply M2|apply M3]; left; rewrite Ex; reflexivity. }
      destruct (IH r1 S1 W1) as (r & E & F & W & B). exists r. cbn [np_fold]. unfold np_iop at 1. rewrite E1. cbn [bind].
      rewrite Ex, S1. rewrite (proj2 (shape_eqb_eq O O) eq_refl). split; [exact E|]. split; [exact F|]. split; [exact W|].
      intros f i j Hf Hi Hj. rewrite B by assumption. cbn [map fold_left]. rewrite B1 by assumption. reflexivity.
  Qed.

  Lemma bat_full (t : tensor N) O : fst t = O -> 0 <= sC O -> 0 <= sH O -> 0 <= sW O -> well_shaped N t ->
    snd t = tab3 (sC O) (sH O) (sW O) (fun f i j => bat N t f i j).
  Proof.
    intros E H1 H2 H3 W. unfold well_shaped in W. rewrite E in W.
    rewrite <- (tab3_at3 (n0 N) (sC O) (sH O) (sW O) (snd t)) at 1 by assumption.
    apply tab3_ext; auto. intros c h w Hc Hh Hw. unfold bat. rewrite E. f_equal; unfold pick;
      match goal with |- context [?a =? 1] => destruct (Z.eqb_spec a 1) end; lia.
  Qed.

  Definition needs_full_first (k : bkind) : bool := match k with BMax | BMin => false | _ => true end.
  Definition uses_constant (k : bkind) : bool := match k with BSub | BMul | BDiv => true | _ => false end.

  Lemma broadcast_py_ok k x xs cst O act :
    accepted_shapes (map fst (x :: xs) ++ match cst with Some c => [fst c] | None => [] end) O ->
    Forall (well_shaped N) (x :: xs) -> (forall c, cst = Some c -> well_shaped N c) ->
    (needs_full_first k = true -> xs = [] \/ fst x = O) ->
    (cst <> None -> uses_constant k = true) ->
    (cst = None -> uses_constant k = true -> forall v, bop N k v (neutral N k) = v) ->
    broadcast_py N k (x :: xs) cst act = Some (broadcast_result N k (x :: xs) cst O act).
  Proof.
    intros (HP & HF & HX1 & HX2 & HX3) HW HWc Hfull Hc Hneut.
    rewrite !map_app in HX1, HX2, HX3. rewrite Forall_app in HP, HF. destruct HP as (HP & HPc). destruct HF as (HF & HFc).
    rewrite Forall_map in HP, HF.
    inversion HP as [|? ? Px Pxs]; subst. inversion HF as [|? ? Fx Fxs]; subst. inversion HW as [|? ? Wx Wxs]; subst.
    assert (FP : Forall (fun t => fits (fst t) O /\ positive (fst t)) xs) by (apply Forall_and; assumption).
    assert (PO : positive O).
    { destruct HX1 as (I1 & M1). destruct HX2 as (I2 & M2). destruct HX3 as (I3 & M3). cbn [map app] in M1, M2, M3.
      inversion M1; inversion M2; inversion M3; subst. destruct Px as (? & ? & ?). unfold positive. lia. }
    assert (OC : 0 <= sC O /\ 0 <= sH O /\ 0 <= sW O) by (destruct PO as (? & ? & ?); lia). destruct OC as (OC & OH & OW).
    (* the result of the last operation with the constant *)
    assert (FIN : forall op r c,
       fits (fst r) O -> positive (fst r) -> fits (fst c) O -> positive (fst c) ->
       (sC (fst r) = sC O \/ sC (fst c) = sC O) -> (sH (fst r) = sH O \/ sH (fst c) = sH O) -> (sW (fst r) = sW O \/ sW (fst c) = sW O) ->
       exists q, np_op N op r c = Some q /\
         snd q = tab3 (sC O) (sH O) (sW O) (fun f i j => op (bat N r f i j) (bat N c f i j))).
    { intros op r c A1 A2 A3 A4 A5 A6 A7. destruct (np_op_spec op r c O A1 A3 A2 A4) as (q & E & F & P & W & _ & M1 & M2 & M3 & B).
      exists q. split; [exact E|]. rewrite (bat_full q O); auto.
      - apply tab3_ext; auto.
      - apply shape_ext; auto. }
    assert (SC : forall v, fits (fst (scalar N v)) O /\ positive (fst (scalar N v))).
    { intros v. unfold scalar, fits, fits_dim, positive. cbn. lia. }
    assert (BSC : forall v f i j, bat N (scalar N v) f i j = v) by reflexivity.
    (* fold with in-place operator: either no further operand or full first *)
    assert (FOLD : needs_full_first k = true ->
        exists r, np_fold N (np_iop N (bop N k)) x xs = Some r /\ fst r = fst x /\ well_shaped N r /\
          (forall f i j, 0 <= f < sC O -> 0 <= i < sH O -> 0 <= j < sW O ->
             bat N r f i j = fold_left (bop N k) (map (fun t => bat N t f i j) xs) (bat N x f i j))).
    { intros Hn. destruct (Hfull Hn) as [->|E].
      - exists x. repeat split; auto.
      - destruct (np_fold_iop (bop N k) O xs PO FP x E Wx) as (r & E1 & E2 & E3 & E4). exists r. rewrite E2, E. auto. }
    assert (XO : cst = None -> needs_full_first k = true -> fst x = O).
    { intros -> Hn. destruct (Hfull Hn) as [->|E]; [|exact E]. cbn in HX1, HX2, HX3.
      apply shape_ext; [destruct HX1 as ([->|[]] & _)|destruct HX2 as ([->|[]] & _)|destruct HX3 as ([->|[]] & _)]; reflexivity. }
    assert (CST : forall c, cst = Some c -> fits (fst c) O /\ positive (fst c)).
    { intros c ->. inversion HFc; inversion HPc; subst. auto. }
    assert (XCO : forall c, cst = Some c -> needs_full_first k = true ->
       (sC (fst x) = sC O \/ sC (fst c) = sC O) /\ (sH (fst x) = sH O \/ sH (fst c) = sH O) /\ (sW (fst x) = sW O \/ sW (fst c) = sW O)).
    { intros c -> Hn. destruct (Hfull Hn) as [->|E]; [|rewrite E; auto]. cbn in HX1, HX2, HX3.
      destruct HX1 as (I1 & _). destruct HX2 as (I2 & _). destruct HX3 as (I3 & _). cbn [In] in *. intuition. }
    assert (RES : forall l, l = tab3 (sC O) (sH O) (sW O) (fun f i j =>
        combine N k (map (fun t => bat N t f i j) (x :: xs)) (option_map (fun t => bat N t f i j) cst)) ->
        Some (map act l) = Some (broadcast_result N k (x :: xs) cst O act)).
    { intros l ->. reflexivity. }
    assert (MAX : needs_full_first k = false -> cst = None -> exists r, np_fold N (np_op N (bop N k)) x xs = Some r /\
        snd r = tab3 (sC O) (sH O) (sW O) (fun f i j => fold_left (bop N k) (map (fun t => bat N t f i j) xs) (bat N x f i j))).
    { intros _ ->. destruct (np_fold_op (bop N k) O xs FP x Fx Px Wx) as (r & E & F & P & W & I1 & I2 & I3 & B).
      exists r. split; [exact E|].
      destruct HX1 as (J1 & _), HX2 as (J2 & _), HX3 as (J3 & _). rewrite app_nil_r in J1, J2, J3. rewrite map_map in J1, J2, J3.
      rewrite (bat_full r O); auto; [apply tab3_ext; auto|]. apply shape_ext; auto. }
    unfold broadcast_py.
    destruct k; cbn [needs_full_first uses_constant] in *;
      try (destruct cst as [c|]; [exfalso; assert (false = true) by (apply Hc; congruence); discriminate|]).
    - (* Add *) destruct (FOLD eq_refl) as (r & E & E1 & W & B). rewrite E. cbn [bind]. apply RES.
      rewrite (bat_full r O); auto; [|rewrite E1; auto]. apply tab3_ext; auto.
    - (* Sub *) destruct (FOLD eq_refl) as (r & E & E1 & W & B). rewrite E. cbn [bind].
      destruct cst as [c|].
      + destruct (CST c eq_refl) as (Fc & Pc). destruct (XCO c eq_refl eq_refl) as (X1 & X2 & X3).
        destruct (FIN (bop N BSub) r c) as (q & Eq & Sq); rewrite ?E1; auto. rewrite Eq. cbn [bind]. apply RES. rewrite Sq.
        apply tab3_ext; auto. intros f i j Hf Hi Hj. rewrite B by assumption. reflexivity.
      + specialize (XO eq_refl eq_refl). destruct (SC (n0 N)) as (S1 & S2).
        destruct (FIN (bop N BSub) r (scalar N (n0 N))) as (q & Eq & Sq); rewrite ?E1, ?XO; auto; try (unfold fits, fits_dim; tauto).
        rewrite Eq. cbn [bind]. apply RES. rewrite Sq.
        apply tab3_ext; auto. intros f i j Hf Hi Hj. rewrite B, BSC by assumption. apply (Hneut eq_refl eq_refl).
    - (* Mul *) destruct (FOLD eq_refl) as (r & E & E1 & W & B). rewrite E. cbn [bind].
      destruct cst as [c|].
      + destruct (CST c eq_refl) as (Fc & Pc). destruct (XCO c eq_refl eq_refl) as (X1 & X2 & X3).
        destruct (FIN (bop N BMul) r c) as (q & Eq & Sq); rewrite ?E1; auto. rewrite Eq. cbn [bind]. apply RES. rewrite Sq.
        apply tab3_ext; auto. intros f i j Hf Hi Hj. rewrite B by assumption. reflexivity.
      + specialize (XO eq_refl eq_refl). destruct (SC (n1 N)) as (S1 & S2).
        destruct (FIN (bop N BMul) r (scalar N (n1 N))) as (q & Eq & Sq); rewrite ?E1, ?XO; auto; try (unfold fits, fits_dim; tauto).
        rewrite Eq. cbn [bind]. apply RES. rewrite Sq.
        apply tab3_ext; auto. intros f i j Hf Hi Hj. rewrite B, BSC by assumption. apply (Hneut eq_refl eq_refl).
    - (* Div *) destruct (FOLD eq_refl) as (r & E & E1 & W & B). rewrite E. cbn [bind].
      destruct cst as [c|].
      + destruct (CST c eq_refl) as (Fc & Pc). destruct (XCO c eq_refl eq_refl) as (X1 & X2 & X3).
        destruct (FIN (bop N BDiv) r c) as (q & Eq & Sq); rewrite ?E1; auto. rewrite Eq. cbn [bind]. apply RES. rewrite Sq.
        apply tab3_ext; auto. intros f i j Hf Hi Hj. rewrite B by assumption. reflexivity.
      + specialize (XO eq_refl eq_refl). destruct (SC (n1 N)) as (S1 & S2).
        destruct (FIN (bop N BDiv) r (scalar N (n1 N))) as (q & Eq & Sq); rewrite ?E1, ?XO; auto; try (unfold fits, fits_dim; tauto).
        rewrite Eq. cbn [bind]. apply RES. rewrite Sq.
        apply tab3_ext; auto. intros f i j Hf Hi Hj. rewrite B, BSC by assumption. apply (Hneut eq_refl eq_refl).
    - (* Max *) destruct (MAX eq_refl eq_refl) as (r & E & S). rewrite E. cbn [bind]. apply RES. rewrite S. reflexivity.
    - (* Min *) destruct (MAX eq_refl eq_refl) as (r & E & S). rewrite E. cbn [bind]. apply RES. rewrite S. reflexivity.
    - (* Avg *) destruct (FOLD eq_refl) as (r & E & E1 & W & B). rewrite E. cbn [bind].
      specialize (XO eq_refl eq_refl). destruct (SC (nofZ N (zlen (x :: xs)))) as (S1 & S2).
      destruct (FIN (ndiv N) r (scalar N (nofZ N (zlen (x :: xs))))) as (q & Eq & Sq); rewrite ?E1, ?XO; auto; try (unfold fits, fits_dim; tauto).
      match goal with |- context [np_op N (ndiv N) r ?c] => change (np_op N (ndiv N) r c) with (np_op N (ndiv N) r (scalar N (nofZ N (zlen (x :: xs))))) end.
      rewrite Eq. cbn [bind]. apply RES. rewrite Sq.
      apply tab3_ext; auto. intros f i j Hf Hi Hj. rewrite B, BSC by assumption. unfold combine. cbn [map].
      replace (zlen (bat N x f i j :: map (fun t => bat N t f i j) xs)) with (zlen (x :: xs)); [reflexivity|].
      unfold zlen. cbn [length]. rewrite map_length. reflexivity.
  Qed.
End Proofs.
