(** * Properties C27 and C50: broadcast arithmetic and its import.
    [broadcast_result k ts cst O act] (BroadcastProofs.v): element (f,i,j) is
    [act] of the operator applied from left to right to the operands' elements
    (coordinate 0 along an operand's dimensions of size 1), then to the
    constant's element; Average divides by the number of operands. *)
From Coq Require Import ZArith List Lia Bool QArith Qcanon.
Import ListNotations.
Open Scope Z_scope.
From Verif Require Import CMem Tensor Num NumInst Activation Broadcast BroadcastProofs PropertiesMovement.

(** ** C27, generated code: any number of operands, any of which may be stored
    in the output array; no arithmetic law. *)
Theorem C27_broadcast : forall (N : num) k (ops : list (bname * tensor N)) (cst : option (tensor N)) out O act,
  out <> Temp -> ops <> [] -> Forall (fun o => fst o <> Temp) ops ->
  accepted_shapes (map fst (map snd ops) ++ match cst with Some c => [fst c] | None => [] end) O ->
  Forall (well_shaped N) (map snd ops) -> (forall c, cst = Some c -> well_shaped N c) ->
  layer_ok (broadcast_c N k (map (op_shape N) ops) cst out O act) (map (op_src N) ops) out
    (sC O * sH O * sW O) (sC O * sH O * sW O) (broadcast_result N k (map snd ops) cst O act).
Proof.
  intros N k ops cst out O act Ho Hne HT (HP & HF & X1 & X2 & X3) HW HWc.
  rewrite Forall_app in HP, HF. destruct HP as (HP & HPc), HF as (HF & HFc). rewrite Forall_map in HP, HF.
  assert (PO : positive O).
  { destruct ops as [|o ops]; [congruence|]. destruct X1 as (_ & M1), X2 as (_ & M2), X3 as (_ & M3).
    cbn [map app] in M1, M2, M3. inversion M1; inversion M2; inversion M3; subst. inversion HP as [|? ? (P1 & P2 & P3)]; subst.
    unfold positive. lia. }
  destruct PO as (P1 & P2 & P3).
  apply broadcast_ok; auto; try lia.
  - rewrite Forall_forall in *. intros t Ht. auto.
  - intros c ->. inversion HPc; inversion HFc; subst. auto.
Qed.
Print Assumptions C27_broadcast.

(** Python computes the same tensor when, for Add, Subtract, Multiply, Divide
    and Average, the first operand has the output shape (or is the only one). *)
Theorem C27_broadcast_python : forall (N : num) k x xs (cst : option (tensor N)) O act,
  accepted_shapes (map fst (x :: xs) ++ match cst with Some c => [fst c] | None => [] end) O ->
  Forall (well_shaped N) (x :: xs) -> (forall c, cst = Some c -> well_shaped N c) ->
  (needs_full_first k = true -> xs = [] \/ fst x = O) ->
  (cst <> None -> uses_constant k = true) ->
  (cst = None -> uses_constant k = true -> forall v, bop N k v (neutral N k) = v) ->
  broadcast_py N k (x :: xs) cst act = Some (broadcast_result N k (x :: xs) cst O act).
Proof. exact broadcast_py_ok. Qed.
Print Assumptions C27_broadcast_python.

(** The last hypothesis follows from the laws of arithmetic. *)
Lemma neutral_laws (N : num) k : ring_laws N -> uses_constant k = true ->
  (k = BDiv -> field_laws N /\ n1 N <> n0 N) -> forall v, bop N k v (neutral N k) = v.
Proof.
  intros L Hk HD v. destruct k; try discriminate; cbn [bop neutral].
  - rewrite <- (add_0_r N L (nsub N v (n0 N))). apply (sub_add N L).
  - apply (mul_1_r N L).
  - destruct (HD eq_refl) as (F & H1). rewrite <- (mul_1_r N L (ndiv N v (n1 N))). apply (div_cancel N F). exact H1.
Qed.

Example C27_example :
  let x : tensor Znum := (mkShape 2 1 3, [1;2;3;4;5;6]) in
  let y : tensor Znum := (mkShape 1 1 3, [10;20;30]) in
  let c : tensor Znum := (mkShape 2 1 1, [100;200]) in
  let O := mkShape 2 1 3 in
  accepted_shapes [fst x; fst y; fst c] O /\
  result_of (broadcast_c Znum BSub [(Out 0%nat, fst x); (Cst 0%nat, fst y)] (Some c) (Out 0) O (fun v => v)
    (mem_of [(Out 0, snd x); (Cst 0, snd y); (Temp, [0;0;0;0;0;0])])) (Out 0) 6
    = Some [-109; -118; -127; -206; -215; -224] /\
  broadcast_py Znum BSub [x; y] (Some c) (fun v => v) = Some [-109; -118; -127; -206; -215; -224] /\
  result_of (broadcast_c Znum BMax [(Cst 0%nat, fst y); (Out 0%nat, fst x)] None (Out 0) O (fun v => v)
    (mem_of [(Out 0, snd x); (Cst 0, [3;3;5]); (Temp, [0;0;0;0;0;0])])) (Out 0) 6
    = Some [3; 3; 5; 4; 5; 6].
Proof.
  cbv zeta. split; [|repeat split].
  unfold accepted_shapes, fits, fits_dim, positive, is_max. cbn.
  repeat split; repeat constructor; cbn; lia.
Qed.

(** When the first operand is the smaller one the constructors accept the
    layer, the generated code computes the broadcast sum, and the Python
    reference raises (numpy cannot broadcast the target of += ). *)
Theorem C27_small_first_operand_refuted : exists (x y : tensor Znum) (O : shape),
  accepted_shapes [fst x; fst y] O /\ well_shaped Znum x /\ well_shaped Znum y /\
  broadcast_py Znum BAdd [x; y] None (fun v => v) = None /\
  result_of (broadcast_c Znum BAdd [(Out 0%nat, fst x); (Cst 0%nat, fst y)] None (Out 0) O (fun v => v)
    (mem_of [(Out 0, snd x ++ [0]); (Cst 0, snd y); (Temp, [0;0])])) (Out 0) 2 = Some [11; 21].
Proof.
  exists (mkShape 1 1 1, [1]), (mkShape 2 1 1, [10; 20]), (mkShape 2 1 1).
  split; [|repeat split].
  unfold accepted_shapes, fits, fits_dim, positive, is_max. cbn.
  repeat split; repeat constructor; cbn; lia.
Qed.
Print Assumptions C27_small_first_operand_refuted.

(** The Python Average leaves its first operand's array changed, so another
    layer reading that tensor afterwards sees the sum instead. *)
Theorem C27_average_aliasing_refuted : exists (x y q after : tensor Qcnum),
  fst x = fst y /\ average_forward Qcnum x [y] = Some (q, after) /\ after <> x.
Proof.
  eexists (mkShape 1 1 1, [1%Qc]), (mkShape 1 1 1, [1%Qc]), _, _.
  split; [reflexivity|]. split; [vm_compute; reflexivity|]. intros E. inversion E.
Qed.
Print Assumptions C27_average_aliasing_refuted.

(** ** C50: import of ONNX arithmetic nodes.  The node means
    [bop k x c], element by element, with [c] an initialiser of the same shape
    as [x]. *)
Lemma bat_np_full N s v f i j : positive s -> 0 <= f < sC s -> 0 <= i < sH s -> 0 <= j < sW s ->
  bat N (np_full N s v) f i j = v.
Proof.
  intros P Hf Hi Hj. unfold np_full. rewrite (bat_tab N s _ s); auto. unfold fits, fits_dim; auto.
Qed.

Lemma fold_one N k s c : positive s -> fst c = s ->
  exists r, fold_initializers N k s [c] = Some r /\ fst r = s /\ well_shaped N r /\
    forall f i j, 0 <= f < sC s -> 0 <= i < sH s -> 0 <= j < sW s ->
      bat N r f i j = bop N k (neutral N k) (bat N c f i j).
Proof.
  intros P E. assert (F : fits s s) by (unfold fits, fits_dim; auto).
  destruct (np_op_spec N (bop N k) (np_full N s (neutral N k)) c s) as (r & Er & Fr & Pr & Wr & _ & M1 & M2 & M3 & B);
    cbn [np_full fst]; rewrite ?E; auto.
  exists r. unfold fold_initializers. cbn [np_fold]. rewrite Er. cbn [bind].
  split; [reflexivity|]. split; [apply shape_ext; [apply M1|apply M2|apply M3]; left; reflexivity|].
  split; [exact Wr|]. intros f i j Hf Hi Hj. rewrite B by assumption. rewrite bat_np_full by assumption. reflexivity.
Qed.

(** What the imported layer computes for the node [k(x, c)]. *)
Definition imported (N : num) (k : bkind) (x c : tensor N) : option (list (T N)) :=
  cst <- import_constant N k (fst x) [c] ;;
  Some (broadcast_result N k [x] cst (fst x) (fun v => v)).
(** What the node means. *)
Definition node_meaning (N : num) (k : bkind) (x c : tensor N) : list (T N) :=
  broadcast_result N k [x; c] None (fst x) (fun v => v).

Lemma imported_value N k x c : positive (fst x) -> fst c = fst x -> uses_constant k = true ->
  (forall f i j, 0 <= f < sC (fst x) -> 0 <= i < sH (fst x) -> 0 <= j < sW (fst x) ->
     neq N (bop N k (neutral N k) (bat N c f i j)) (neutral N k) = true) ->
  imported N k x c = Some (tab3 (sC (fst x)) (sH (fst x)) (sW (fst x)) (fun f i j =>
    bop N k (bat N x f i j) (bop N k (neutral N k) (bat N c f i j)))).
Proof.
  intros P E Hk HN. destruct (fold_one N k (fst x) c P E) as (r & Er & Fr & Wr & B).
  assert (P' := P). destruct P' as (P1 & P2 & P3).
  unfold imported, import_constant.
  match type of Er with ?l = _ => change (fold_initializers N k (fst x) [c]) with l end.
  rewrite Er. cbn [bind]. unfold keep_constant.
  assert (FA : forallb (fun v => neq N v (neutral N k)) (snd r) = true).
  { apply forallb_forall. intros v Hv. rewrite (bat_full N r (fst x)) in Hv by (auto; lia).
    unfold tab3, tab in Hv. apply in_map_iff in Hv. destruct Hv as (n & <- & Hn). apply in_seq in Hn.
    destruct (split3_range (sC (fst x)) (sH (fst x)) (sW (fst x)) (Z.of_nat n)) as (_ & _ & _ & H1 & H2 & H3); try lia.
    rewrite B by assumption. apply HN; assumption. }
  rewrite FA. unfold broadcast_result. rewrite map_id. f_equal. apply tab3_ext; try lia. intros f i j Hf Hi Hj.
  unfold combine. cbn [map option_map fold_left]. rewrite B by assumption. destruct k; try discriminate; reflexivity.
Qed.

(** Multiply is imported correctly when no element of the initialiser is 1. *)
Theorem C50_mul_initializer_partial : forall (N : num) (x c : tensor N), ring_laws N ->
  positive (fst x) -> fst c = fst x ->
  (forall f i j, 0 <= f < sC (fst x) -> 0 <= i < sH (fst x) -> 0 <= j < sW (fst x) -> neq N (bat N c f i j) (n1 N) = true) ->
  imported N BMul x c = Some (node_meaning N BMul x c).
Proof.
  intros N x c L P E HN. rewrite (imported_value N BMul x c P E eq_refl).
  - destruct P as (P1 & P2 & P3). unfold node_meaning, broadcast_result. rewrite map_id. f_equal. apply tab3_ext; try lia.
    intros. cbn [combine map fold_left bop neutral option_map]. rewrite (mul_1_l N L). reflexivity.
  - intros. cbn [bop neutral]. rewrite (mul_1_l N L). auto.
Qed.
Print Assumptions C50_mul_initializer_partial.

(** A Sub node with a non-zero initialiser is imported as an addition, a Div
    node as a multiplication. *)
Theorem C50_sub_initializer_refuted : forall (N : num) (x c : tensor N), ring_laws N ->
  positive (fst x) -> fst c = fst x ->
  (forall f i j, 0 <= f < sC (fst x) -> 0 <= i < sH (fst x) -> 0 <= j < sW (fst x) ->
     neq N (nopp N (bat N c f i j)) (n0 N) = true) ->
  imported N BSub x c = Some (node_meaning N BAdd x c).
Proof.
  intros N x c L P E HN. rewrite (imported_value N BSub x c P E eq_refl HN).
  destruct P as (P1 & P2 & P3). unfold node_meaning, broadcast_result. rewrite map_id. f_equal. apply tab3_ext; try lia.
  intros f i j Hf Hi Hj. cbn [combine map fold_left bop neutral option_map].
  change (nsub N (n0 N) (bat N c f i j)) with (nopp N (bat N c f i j)). rewrite (sub_def N L).
  f_equal. pose proof (opp_def N L (nopp N (bat N c f i j))) as A. pose proof (opp_def N L (bat N c f i j)) as B.
  rewrite <- (add_0_l N L (nopp N (nopp N _))), <- B, <- (add_assoc N L), A. apply (add_0_r N L).
Qed.
Print Assumptions C50_sub_initializer_refuted.

Theorem C50_div_initializer_refuted : forall (x c : tensor Qcnum),
  positive (fst x) -> fst c = fst x ->
  (forall f i j, 0 <= f < sC (fst x) -> 0 <= i < sH (fst x) -> 0 <= j < sW (fst x) ->
     bat Qcnum c f i j <> 0%Qc /\ neq Qcnum (1 / bat Qcnum c f i j)%Qc 1%Qc = true) ->
  imported Qcnum BDiv x c = Some (node_meaning Qcnum BMul x c).
Proof.
  intros x c P E HN. rewrite (imported_value Qcnum BDiv x c P E eq_refl).
  2:{ intros. apply HN; assumption. }
  destruct P as (P1 & P2 & P3). unfold node_meaning, broadcast_result. rewrite map_id. f_equal. apply tab3_ext; try lia.
  intros f i j Hf Hi Hj. cbn [combine map fold_left bop neutral option_map ndiv n1 nmul Qcnum].
  destruct (HN f i j Hf Hi Hj) as (H0 & _). cbn [T Qcnum] in *. field. split; [exact H0|]. discriminate.
Qed.
Print Assumptions C50_div_initializer_refuted.

(** One element equal to 1 makes the importer drop the whole factor. *)
Theorem C50_constant_dropped_refuted : exists x c : tensor Znum,
  fst c = fst x /\ node_meaning Znum BMul x c = [3; 70] /\ imported Znum BMul x c = Some [3; 7].
Proof. exists (mkShape 2 1 1, [3; 7]), (mkShape 2 1 1, [1; 10]). repeat split. Qed.
Print Assumptions C50_constant_dropped_refuted.

(** Concrete instances: 7 - 2 is imported as 9; 3*5 is imported correctly. *)
Example C50_example :
  let x : tensor Znum := (mkShape 2 1 1, [7; 3]) in let c : tensor Znum := (mkShape 2 1 1, [2; 5]) in
  node_meaning Znum BSub x c = [5; -2] /\ imported Znum BSub x c = Some [9; 8] /\
  node_meaning Znum BMul x c = [14; 15] /\ imported Znum BMul x c = Some [14; 15].
Proof. repeat split. Qed.
