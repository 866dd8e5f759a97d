(** * Property C62: ONNX Gemm, MatMul and BatchNormalization nodes are imported
    with their ONNX meaning (OnnxLinearSpec.v). *)
From Coq Require Import ZArith List Lia Bool.
Import ListNotations.
Open Scope Z_scope.
From Verif Require Import CMem Tensor Num NumInst Activation Linear LinearProofs PropertiesLinear Broadcast PropertiesMovement
  OnnxSpec OnnxOps OnnxOpsProofs OnnxReduceProofs PropertiesOnnxReduce OnnxWindow PropertiesOnnxWindow OnnxLinearSpec OnnxLinear.

Definition or_one (N : num) (o : option (T N)) : T N := match o with Some a => a | None => n1 N end.

Lemma float_attribute_scaled (N : num) o v : ring_laws N -> order_laws N ->
  scaled (float_attribute N o) v = nmul N (or_one N o) v.
Proof.
  intros L OL. destruct o as [a|]; cbn [float_attribute or_one]; [|cbn; rewrite (mul_1_l N L); reflexivity].
  destruct (neq N a (n1 N)) eqn:E; [reflexivity|]. unfold neq in E. apply orb_false_iff in E. destruct E as (E1 & E2).
  rewrite (lt_total N OL a (n1 N) E1 E2). cbn. rewrite (mul_1_l N L). reflexivity.
Qed.
Lemma shape2 raw m k : run_dims raw = [m; k] -> Forall (fun n => 0 <= n) raw -> 0 < m /\ 0 < k /\ get_shape raw = [1; 1; m; k].
Proof.
  intros E P. pose proof (run_dims_pos raw P) as Q. rewrite E in Q. inversion Q as [|? ? Q1 Q2]; inversion Q2 as [|? ? Q3 _]; subst.
  split; [exact Q1|]. split; [exact Q3|]. pose proof (run_dims_length raw) as L. rewrite E in L. cbn in L.
  rewrite get_shape_eq by (unfold zlen; lia || exact P). rewrite E, <- L. reflexivity.
Qed.
Lemma el2 {V} (d : V) a b x i j : el d [a; b] x [i; j] = at2 d b x i j.
Proof. unfold el, at2. f_equal. cbn [offset prod]. ring. Qed.

Lemma map_tab2 {A B} (g : A -> B) H W f : map g (tab2 H W f) = tab2 H W (fun i j => g (f i j)).
Proof. unfold tab2. apply map_tab. Qed.

(** ** Gemm.  A is a computed matrix, B an initialiser, C an initialiser of one
    dimension, alpha = 1 or beta <> 1. *)
Theorem C62_gemm : forall (N : num), ring_laws N -> order_laws N ->
  forall raw_in raw_out tA tB alpha beta M Nn K w c x,
  Forall (fun n => 0 <= n) raw_in -> Forall (fun n => 0 <= n) raw_out ->
  run_dims raw_in = (if tA : bool then [K; M] else [M; K]) -> run_dims raw_out = [M; Nn] ->
  (or_one N alpha = n1 N \/ neq N (or_one N beta) (n1 N) = true) ->
  zlen x = M * K -> zlen w = K * Nn -> zlen c = Nn ->
  exists G, create_gemm N raw_in raw_out tA tB alpha beta (if tB : bool then [Nn; K] else [K; Nn]) (Some [Nn]) = Some G /\
    forall src out act, src <> Temp -> out <> Temp ->
    exists y, gemm_value N tA tB (or_one N alpha) (or_one N beta) M Nn K [Nn] x w c y /\
      layer_ok (gemm_c N src out (gl_tA G) (gl_tB G) (gl_alpha G) (gl_beta G) (gl_m G) (gl_n G) (gl_k G) w c act) [(src, x)] out (zlen y) (zlen y) (map act y).
Proof.
  intros N L OL raw_in raw_out tA tB alpha beta M Nn K w c x PI PO EI EO HAB Hx Hw Hc.
  assert (S2 : 0 < M /\ 0 < K /\ get_shape raw_in = [1; 1; if tA then K else M; if tA then M else K]).
  { destruct tA; destruct (shape2 _ _ _ EI PI) as (A & B & C); auto. }
  destruct S2 as (HM & HK & GI). destruct (shape2 _ _ _ EO PO) as (_ & HN & GO).
  exists (mkGemmLayer M Nn K tA tB (float_attribute N alpha) (float_attribute N beta)). split.
  - unfold create_gemm. cbn [bind]. rewrite GI, GO. cbn [dims3 bind].
    assert (GC : gemm_check (is_none (float_attribute N alpha)) (is_none (float_attribute N beta)) false false = GemmOk).
    { assert (IA : or_one N alpha = n1 N -> float_attribute N alpha = None).
      { destruct alpha as [a|]; [|reflexivity]. cbn. intros ->. unfold neq. rewrite (lt_irrefl N OL). reflexivity. }
      destruct HAB as [HA|HB].
      - rewrite (IA HA). destruct (is_none (float_attribute N beta)); reflexivity.
      - destruct beta as [b|]; cbn [or_one] in HB; [|unfold neq in HB; rewrite (lt_irrefl N OL) in HB; discriminate].
        cbn [float_attribute]. rewrite HB. cbn. destruct (is_none (float_attribute N alpha)); reflexivity. }
    rewrite GC. rewrite find_size4 by lia. cbn [rev app bias_dims_ok].
    destruct tA, tB; cbn [bind]; change (rdl [Nn; K] 0) with (Some Nn); change (rdl [Nn; K] 1) with (Some K); change (rdl [K; Nn] 0) with (Some K);
      change (rdl [K; Nn] 1) with (Some Nn); cbn [bind]; replace (1 * M * Nn) with (M * Nn) by ring; rewrite !Z.eqb_refl, orb_true_r; reflexivity.
  - intros src out act Hs Ho. cbn [gl_tA gl_tB gl_alpha gl_beta gl_m gl_n gl_k].
    set (y := tab2 M Nn (fun i j =>
       let A i p := if tA then at2 (n0 N) M x p i else at2 (n0 N) K x i p in
       let B p j := if tB then at2 (n0 N) K w j p else at2 (n0 N) Nn w p j in
       nadd N (scaled (float_attribute N alpha) (nsum N K (fun p => nmul N (A i p) (B p j))))
              (scaled (float_attribute N beta) (nthZ (n0 N) c j)))).
    assert (ZY : zlen y = M * Nn) by (unfold y, tab2; apply zlen_tab; nia).
    exists y. split.
    + split; [exact ZY|]. intros i j Hi Hj. cbv zeta. rewrite el2. unfold y. rewrite at2_tab2 by assumption. cbv zeta.
      rewrite !float_attribute_scaled by assumption. f_equal; f_equal.
      * rewrite fold_tab by lia. apply nsum_ext. intros p Hp. rewrite <- !el2 with (a := if tA then K else M). destruct tA, tB; rewrite ?el2; reflexivity.
      * unfold el, aligned. cbn. destruct (Z.eqb_spec Nn 1); cbn; [replace j with 0 by lia; reflexivity|]. f_equal. ring.
    + rewrite ZY. pose proof (C13_gemm N L src out tA tB (float_attribute N alpha) (float_attribute N beta) M Nn K w c act x Ho Hs) as G.
      unfold y. rewrite map_tab2. apply G; lia.
Qed.
Print Assumptions C62_gemm.

(** 2x3 times the transpose of a 2x3 matrix, alpha = 2, beta = 3. *)
Example C62_gemm_example :
  create_gemm Znum [2; 3] [2; 2] false true (Some 2) (Some 3) [2; 3] (Some [2])
  = Some (mkGemmLayer 2 2 3 false true (Some 2) (Some 3)) /\
  create_gemm Znum [0; 3] [0; 2] false false None None [3; 2] (Some [2]) = Some (mkGemmLayer 1 2 3 false false None None) /\
  result_of (gemm_c Znum (Out 0) (Out 1) false true (Some 2) (Some 3) 2 2 3 [1;0;0; 0;1;1] [10; 20] (fun v => v)
    (mem_of [(Out 0, [1;2;3;4;5;6]); (Out 1, repeat 0 4); (Temp, repeat 0 4)])) (Out 1) 4 = Some [32; 70; 38; 82].
Proof. repeat split. Qed.

(** C is optional in ONNX. *)
Theorem C62_gemm_no_bias_refuted : forall N raw_in raw_out tA tB alpha beta wdims,
  create_gemm N raw_in raw_out tA tB alpha beta wdims None = None.
Proof. reflexivity. Qed.
Print Assumptions C62_gemm_no_bias_refuted.
(** alpha <> 1 and beta absent: rejected. *)
Theorem C62_gemm_alpha_refuted : forall N raw_in raw_out tA tB alpha wdims bd,
  neq N alpha (n1 N) = true -> create_gemm N raw_in raw_out tA tB (Some alpha) None wdims bd = None.
Proof.
  intros N raw_in raw_out tA tB alpha wdims bd H. unfold create_gemm. destruct bd as [bd|]; [|reflexivity]. cbn [bind].
  destruct (dims3 (get_shape raw_in)) as [[[a b] c]|]; [|reflexivity]. cbn [bind].
  destruct (dims3 (get_shape raw_out)) as [[[e f] g]|]; [|reflexivity]. cbn [bind float_attribute]. rewrite H. reflexivity.
Qed.
Print Assumptions C62_gemm_alpha_refuted.
(** C as a row matrix (1, n): the check compares the dimensions in reverse order. *)
Theorem C62_gemm_row_bias_refuted : forall N raw_in raw_out tA tB alpha beta wdims M Nn,
  Forall (fun n => 0 <= n) raw_out -> run_dims raw_out = [M; Nn] -> Nn <> 1 -> Nn <> M ->
  create_gemm N raw_in raw_out tA tB alpha beta wdims (Some [1; Nn]) = None.
Proof.
  intros N raw_in raw_out tA tB alpha beta wdims M Nn PO EO H1 HM. destruct (shape2 _ _ _ EO PO) as (_ & _ & GO).
  unfold create_gemm. cbn [bind]. destruct (dims3 (get_shape raw_in)) as [[[a b] c]|]; [|reflexivity]. cbn [bind].
  rewrite GO. cbn [dims3 bind]. destruct (gemm_check _ _ _ _); try reflexivity.
  destruct (rdl wdims 0) as [w0|]; [|reflexivity]. destruct (rdl wdims 1) as [w1|]; [|reflexivity]. cbn [bind].
  cbn [rev app bias_dims_ok]. replace (Nn =? 1) with false by (symmetry; apply Z.eqb_neq; exact H1).
  replace (Nn =? M) with false by (symmetry; apply Z.eqb_neq; exact HM). cbn [orb andb]. rewrite !andb_false_r. reflexivity.
Qed.
Print Assumptions C62_gemm_row_bias_refuted.
(** C as a full matrix: accepted when it is square, the first row is used for all. *)
Theorem C62_gemm_matrix_bias_refuted : exists G (y : list Z),
  create_gemm Znum [2; 1] [2; 2] false false None None [1; 2] (Some [2; 2]) = Some G /\
  result_of (gemm_c Znum (Out 0) (Out 1) (gl_tA G) (gl_tB G) (gl_alpha G) (gl_beta G) (gl_m G) (gl_n G) (gl_k G) [0; 0] [1; 2; 3; 4] (fun v => v)
    (mem_of [(Out 0, [0; 0]); (Out 1, repeat 0 4); (Temp, repeat 0 4)])) (Out 1) 4 = Some y /\
  ~ gemm_value Znum false false 1 1 2 2 1 [2; 2] [0; 0] [0; 0] [1; 2; 3; 4] y.
Proof.
  eexists. eexists. split; [reflexivity|]. split; [vm_compute; reflexivity|].
  intros (_ & G). specialize (G 1 0 ltac:(lia) ltac:(lia)). vm_compute in G. discriminate.
Qed.
Print Assumptions C62_gemm_matrix_bias_refuted.

(** ** MatMul. *)
(** What the operand is when the network runs on one sample. *)
Definition run_shape (o : operand_shape) : list Z := match o with Initialiser ds => ds | Computed raw => run_dims raw end.
Definition proper (o : operand_shape) : Prop :=
  (1 <= length (run_shape o) <= 4)%nat /\ (length (run_shape o) = 4%nat -> coord 0 (run_shape o) = 1) /\
  match o with Initialiser ds => Forall (fun n => 0 < n) ds | Computed raw => Forall (fun n => 0 <= n) raw end.
Lemma proper_collected o : proper o -> collected o = run_shape o /\ Forall (fun n => 0 < n) (run_shape o).
Proof.
  intros (_ & _ & P). destruct o as [ds|raw]; cbn in *; [auto|]. split; [apply resolve_run; exact P|apply run_dims_pos; exact P].
Qed.

(** The possible stacks: none, C, or 1 x C. *)
Definition stack_of (s : list Z) (C : Z) : Prop := (s = [] /\ C = 1) \/ s = [C] \/ s = [1; C].
Lemma stack_cases s a b : (length (s ++ [a; b]) <= 4)%nat -> (length (s ++ [a; b]) = 4%nat -> coord 0 (s ++ [a; b]) = 1) -> stack_of s (prod s).
Proof.
  intros L H. unfold stack_of. destruct s as [|u [|v [|w s]]]; cbn [length app] in *; rewrite ?app_length in L; cbn [length] in L; try lia.
  - left. split; reflexivity.
  - right; left. cbn. f_equal. lia.
  - right; right. specialize (H eq_refl). cbn in H. subst u. cbn [prod]. f_equal. f_equal. ring.
Qed.

Lemma lead_left d s M K : (1 <= length d <= 4)%nat -> as_left d = s ++ [M; K] -> (length d = 4%nat -> coord 0 d = 1) ->
  lead d = [1; prod s; M; K] /\ stack_of s (prod s).
Proof.
  intros L E H.
  assert (L4 : (length (as_left d) <= 4)%nat /\ (length (as_left d) = 4%nat -> coord 0 (as_left d) = 1) /\ lead d = lead (as_left d)).
  { destruct d as [|a [|b d]]; cbn [as_left]; [cbn in L; lia|cbn; split; [lia|split; [lia|reflexivity]]|]. split; [apply L|split; [exact H|reflexivity]]. }
  destruct L4 as (L4 & H4 & ->). rewrite E in *. pose proof (stack_cases s M K L4 H4) as SC. split; [|exact SC].
  remember (prod s) as C eqn:EC. clear - SC. destruct SC as [(-> & ->)|[->| ->]]; reflexivity.
Qed.
Lemma lead_right d s K Nn : (1 <= length d <= 4)%nat -> as_right d = s ++ [K; Nn] -> (length d = 4%nat -> coord 0 d = 1) ->
  lead (if (length d <? 2)%nat then d ++ [1] else d) = [1; prod s; K; Nn] /\ stack_of s (prod s).
Proof.
  intros L E H.
  assert (L4 : (length (as_right d) <= 4)%nat /\ (length (as_right d) = 4%nat -> coord 0 (as_right d) = 1) /\
               (if (length d <? 2)%nat then d ++ [1] else d) = as_right d).
  { destruct d as [|a [|b d]]; cbn [as_right]; [cbn in L; lia|cbn; split; [lia|split; [lia|reflexivity]]|]. split; [apply L|split; [exact H|reflexivity]]. }
  destruct L4 as (L4 & H4 & ->). rewrite E in *. pose proof (stack_cases s K Nn L4 H4) as SC. split; [|exact SC].
  remember (prod s) as C eqn:EC. clear - SC. destruct SC as [(-> & ->)|[->| ->]]; reflexivity.
Qed.

(** The matrix an index of the stack designates. *)
Definition matrix_of (q : list Z) : Z := match q with [] => 0 | [c] => c | [_; c] => c | _ => 0 end.
Lemma stack_el {V} (d : V) s C M K x q i j : stack_of s C -> inside s q -> el d (s ++ [M; K]) x (q ++ [i; j]) = at3 d M K x (matrix_of q) i j.
Proof.
  intros SC HI. unfold inside in HI. destruct SC as [(-> & ->)|[->| ->]].
  - inversion HI; subst. unfold el, at3, idx3. f_equal. cbn. ring.
  - inversion HI as [|? c ? ? Hc HI2]; subst. inversion HI2; subst. unfold el, at3, idx3. f_equal. cbn. ring.
  - inversion HI as [|? b ? ? Hb HI2]; subst. inversion HI2 as [|? c ? ? Hc HI3]; subst. inversion HI3; subst.
    replace b with 0 by lia. unfold el, at3, idx3. f_equal. cbn. ring.
Qed.
Lemma broadcast_stack sa sb C stack : stack_of sa C -> stack_of sb C -> 0 < C ->
  broadcast_shape [sa; sb] stack -> length stack = Nat.max (length sa) (length sb) ->
  stack_of stack C /\ forall q, inside stack q ->
    0 <= matrix_of q < C /\ (inside sa (aligned sa q) /\ matrix_of (aligned sa q) = matrix_of q) /\ (inside sb (aligned sb q) /\ matrix_of (aligned sb q) = matrix_of q).
Proof.
  intros HA HB HC (_ & _ & HS) HL.
  assert (ST : stack_of stack C).
  { destruct HA as [(-> & E1)|[->| ->]], HB as [(-> & E2)|[->| ->]]; cbn [length Nat.max] in HL;
      destruct stack as [|a [|b [|? ?]]]; cbn [length] in HL; try discriminate HL; unfold stack_of; subst.
    all: try (left; split; reflexivity).
    all: try (right; left; destruct (HS 0%nat ltac:(cbn; lia)) as (_ & ds & [<-|[<-|[]]] & EQ); cbn in EQ; congruence).
    all: right; right; destruct (HS 0%nat ltac:(cbn; lia)) as (_ & ds & [<-|[<-|[]]] & EQ); cbn in EQ;
      destruct (HS 1%nat ltac:(cbn; lia)) as (G & ds2 & [<-|[<-|[]]] & EQ2); cbn in EQ2; subst; try reflexivity.
    all: try (destruct (G [1; C] ltac:(cbn; auto)) as [G'|G']; cbn in G'; congruence).
    all: try (destruct (G [C] ltac:(cbn; auto)) as [G'|G']; cbn in G'; congruence). }
  split; [exact ST|]. intros q HI.
  assert (AL : forall s, stack_of s C -> (length s <= length stack)%nat -> inside s (aligned s q) /\ matrix_of (aligned s q) = matrix_of q).
  { intros s HSs LS. unfold inside in HI. destruct ST as [(-> & E)|[->| ->]].
    - inversion HI; subst. destruct HSs as [(-> & _)|[->| ->]]; cbn in LS; try lia. cbn. split; [constructor|reflexivity].
    - inversion HI as [|? c ? ? Hc HI2]; subst. inversion HI2; subst. destruct HSs as [(-> & ->)|[->| ->]]; cbn in LS; try lia.
      + cbn. split; [constructor|lia].
      + unfold aligned; cbn. destruct (Z.eqb_spec C 1); cbn; (split; [constructor; [lia|constructor]|lia]).
    - inversion HI as [|? b ? ? Hb HI2]; subst. inversion HI2 as [|? c ? ? Hc HI3]; subst. inversion HI3; subst.
      destruct HSs as [(-> & ->)|[->| ->]]; cbn in LS; try lia.
      + cbn. split; [constructor|lia].
      + unfold aligned; cbn. destruct (Z.eqb_spec C 1); cbn; (split; [constructor; [lia|constructor]|lia]).
      + unfold aligned; cbn. destruct (Z.eqb_spec C 1); cbn; (split; [constructor; [lia|constructor; [lia|constructor]]|lia]). }
  split; [|split; apply AL; auto; lia].
  unfold inside in HI. destruct ST as [(-> & E)|[->| ->]].
  - inversion HI; subst. cbn. lia.
  - inversion HI as [|? c ? ? Hc HI2]; subst. inversion HI2; subst. cbn. lia.
  - inversion HI as [|? b ? ? Hb HI2]; subst. inversion HI2 as [|? c ? ? Hc HI3]; subst. inversion HI3; subst. cbn. lia.
Qed.
Lemma prod_stack s C : stack_of s C -> prod s = C.
Proof. intros [(-> & ->)|[->| ->]]; cbn [prod]; ring. Qed.

(** As many matrices on both sides. *)
Theorem C62_matmul : forall (N : num) l r raw_out sa sb stack M K Nn x w,
  proper l -> proper r -> Forall (fun n => 0 <= n) raw_out ->
  as_left (run_shape l) = sa ++ [M; K] -> as_right (run_shape r) = sb ++ [K; Nn] ->
  prod sa = prod sb -> broadcast_shape [sa; sb] stack -> length stack = Nat.max (length sa) (length sb) ->
  run_dims raw_out = product_dims (run_shape l) (run_shape r) stack M Nn ->
  zlen x = prod (run_shape l) -> zlen w = prod (run_shape r) ->
  exists L, create_matmul l r raw_out = Some L /\
    forall left right out act, left <> Temp -> right <> Temp -> out <> Temp ->
    exists y, multiplied N sa sb stack M K Nn x w y /\
      layer_ok (matmul_c N left right out (ml_C L) (ml_OH L) (ml_OW L) (ml_K L) act) [(left, x); (right, w)] out (zlen y) (zlen y) (map act y).
Proof.
  intros N l r raw_out sa sb stack M K Nn x w HL HR PO EL ER EC HB HLS EO Hx Hw.
  destruct (proper_collected l HL) as (CL & PL). destruct (proper_collected r HR) as (CR & PR).
  destruct HL as (HL1 & HL2 & _). destruct HR as (HR1 & HR2 & _).
  destruct (lead_left _ _ _ _ HL1 EL HL2) as (E1 & SA). destruct (lead_right _ _ _ _ HR1 ER HR2) as (E2 & SB).
  rewrite <- EC in SB, E2. set (C := prod sa) in *.
  assert (PA : Forall (fun n => 0 < n) (lead (run_shape l))) by (unfold lead; apply Forall_app; split; [apply Forall_forall; intros a Ha; apply repeat_spec in Ha; lia|exact PL]).
  rewrite E1 in PA. inversion PA as [|? ? _ PA1]; inversion PA1 as [|? ? HC PA2]; inversion PA2 as [|? ? HM PA3]; inversion PA3 as [|? ? HK _]; subst; clear PA PA1 PA2 PA3.
  assert (HN : 0 < Nn).
  { assert (PB : Forall (fun n => 0 < n) (as_right (run_shape r))).
    { destruct (run_shape r) as [|a [|b d]]; cbn [as_right]; auto. inversion PR; subst. repeat constructor; lia. }
    rewrite ER in PB. apply Forall_app in PB. destruct PB as (_ & PB). inversion PB as [|? ? _ PB1]; inversion PB1; subst. assumption. }
  destruct (broadcast_stack sa sb C stack SA SB HC HB HLS) as (ST & SQ).
  assert (PS : prod stack = C) by (apply prod_stack; exact ST).
  assert (ZX : zlen x = C * M * K).
  { rewrite Hx. transitivity (prod (lead (run_shape l))); [unfold lead; rewrite prod_ones; reflexivity|]. rewrite E1. apply prod4. }
  assert (ZW : zlen w = C * K * Nn).
  { rewrite Hw. transitivity (prod (as_right (run_shape r))).
    - destruct (run_shape r) as [|a [|b d]]; cbn [as_right]; try reflexivity.
    - transitivity (prod (lead (as_right (run_shape r)))); [unfold lead; rewrite prod_ones; reflexivity|].
      replace (as_right (run_shape r)) with (if (length (run_shape r) <? 2)%nat then run_shape r ++ [1] else run_shape r).
      + rewrite E2. apply prod4.
      + destruct (run_shape r) as [|a [|b d]]; cbn [as_right] in *; try reflexivity. cbn in HR1. lia. }
  assert (FS : find_size (get_shape raw_out) = Nn * M * C).
  { rewrite find_size_prod, EO by exact PO. unfold product_dims.
    assert (PAPP : forall a b, prod (a ++ b) = prod a * prod b) by (induction a as [|n a IH]; intros b; cbn [app prod]; [ring|rewrite IH; ring]).
    rewrite !PAPP, PS.
    assert (ML : prod (match run_shape l with [_] => [] | _ => [M] end) = M).
    { destruct (run_shape l) as [|a [|b d]]; cbn [as_left] in EL; try (cbn [prod]; ring).
      destruct sa as [|? [|? ?]]; cbn in EL; try discriminate EL; [injection EL as <- <-; reflexivity|].
      apply (f_equal (@length Z)) in EL. cbn in EL. rewrite app_length in EL. cbn in EL. lia. }
    assert (NR : prod (match run_shape r with [_] => [] | _ => [Nn] end) = Nn).
    { destruct (run_shape r) as [|a [|b d]]; cbn [as_right] in ER; try (cbn [prod]; ring).
      destruct sb as [|? [|? ?]]; cbn in ER; try discriminate ER; [injection ER as <- <-; reflexivity|].
      apply (f_equal (@length Z)) in ER. cbn in ER. rewrite app_length in ER. cbn in ER. lia. }
    rewrite ML, NR. ring. }
  exists (mkMatMulLayer C M Nn K). split.
  - unfold create_matmul. rewrite CL, CR, E1, E2, FS, !Z.eqb_refl. reflexivity.
  - intros left right out act Hl Hr Ho. cbn [ml_C ml_OH ml_OW ml_K].
    set (y := tab3 C M Nn (fun f i j => nsum N K (fun k => nmul N (at3 (n0 N) M K x f i k) (at3 (n0 N) K Nn w f k j)))).
    assert (ZY : zlen y = C * M * Nn) by (unfold y; apply zlen_tab3; lia).
    exists y. split.
    + split; [rewrite PS; exact ZY|]. intros q i j Hq Hi Hj. destruct (SQ q Hq) as (QC & (IA & QA) & (IB & QB)).
      rewrite (stack_el (n0 N) stack C M Nn y q i j ST Hq). unfold y. rewrite at3_tab3 by assumption.
      rewrite fold_tab by lia. apply nsum_ext. intros p Hp.
      rewrite (stack_el (n0 N) sa C M K x _ i p SA IA), (stack_el (n0 N) sb C K Nn w _ p j SB IB), QA, QB. reflexivity.
    + rewrite ZY. apply C12_matmul; auto; lia.
Qed.
Print Assumptions C62_matmul.

(** A stack of two matrices times another one; a matrix times a vector; a
    vector times a matrix. *)
Example C62_matmul_example :
  proper (Computed [2; 1; 2]) /\ proper (Initialiser [2; 2; 1]) /\ as_left [2; 1; 2] = [2] ++ [1; 2] /\ as_right [2; 2; 1] = [2] ++ [2; 1] /\
  broadcast_shape [[2]; [2]] [2] /\ create_matmul (Computed [2; 1; 2]) (Initialiser [2; 2; 1]) [2; 1; 1] = Some (mkMatMulLayer 2 1 1 2) /\
  create_matmul (Computed [0; 4; 3]) (Initialiser [3]) [0; 4] = Some (mkMatMulLayer 1 4 1 3) /\
  create_matmul (Computed [3]) (Computed [3; 2]) [2] = Some (mkMatMulLayer 1 1 2 3).
Proof.
  unfold proper. cbn. split; [repeat split; try lia; repeat constructor; lia|]. split; [repeat split; try lia; repeat constructor; lia|].
  split; [reflexivity|]. split; [reflexivity|]. split; [|repeat split].
  split; [intros ds [<-|[<-|[]]]; cbn; lia|]. split; [exists [2]; split; [left; reflexivity|reflexivity]|]. intros q Hq. cbn in Hq. assert (q = 0%nat) by lia. subst q. split.
  - intros ds [<-|[<-|[]]]; cbn; auto.
  - exists [2]. cbn. auto.
Qed.

(** A stack times one matrix (the usual dense layer on a sequence): imported,
    and the generated code leaves the array of weights. *)
Theorem C62_matmul_stack_refuted : exists L,
  create_matmul (Computed [0; 2; 1; 2]) (Initialiser [2; 1]) [0; 2; 1; 1] = Some L /\
  matmul_c Znum (Out 0) (Cst 0) (Out 1) (ml_C L) (ml_OH L) (ml_OW L) (ml_K L) (fun v => v)
    (mem_of [(Out 0, [1; 2; 3; 4]); (Cst 0, [5; 6]); (Out 1, [0; 0]); (Temp, [0; 0])]) = None /\
  multiplied Znum [1; 2] [] [1; 2] 1 2 1 [1; 2; 3; 4] [5; 6] [17; 39].
Proof.
  eexists. split; [reflexivity|]. split; [reflexivity|]. split; [reflexivity|]. intros q i j Hq Hi Hj.
  assert (i = 0) by lia. assert (j = 0) by lia. subst i j. unfold inside in Hq.
  inversion Hq as [|? b ? ? Hb Hq2]; subst. inversion Hq2 as [|? c ? ? Hc Hq3]; subst. inversion Hq3; subst. assert (b = 0) by lia. subst b.
  assert (HC : c = 0 \/ c = 1) by lia. destruct HC as [-> | ->]; vm_compute; reflexivity.
Qed.
Print Assumptions C62_matmul_stack_refuted.
(** One matrix times a stack: rejected. *)
Theorem C62_matmul_left_matrix_refuted : forall l r raw_out M K C Nn, 1 < C ->
  proper l -> proper r -> Forall (fun n => 0 <= n) raw_out ->
  run_shape l = [M; K] -> run_shape r = [C; K; Nn] -> run_dims raw_out = [C; M; Nn] ->
  create_matmul l r raw_out = None.
Proof.
  intros l r raw_out M K C Nn HC HL HR PO EL ER EO.
  destruct (proper_collected l HL) as (CL & PL). destruct (proper_collected r HR) as (CR & PR).
  unfold create_matmul. rewrite CL, CR, EL, ER. cbn [length Nat.ltb Nat.leb lead Nat.sub repeat app].
  rewrite find_size_prod, EO by exact PO. cbn [prod]. rewrite EL in PL. rewrite ER in PR.
  inversion PL as [|? ? HM _]; inversion PR as [|? ? _ PR1]; inversion PR1 as [|? ? HK PR2]; inversion PR2 as [|? ? HN _]; subst.
  replace (C * (M * (Nn * 1)) =? Nn * M * 1) with false; [rewrite andb_false_r; reflexivity|]. symmetry. apply Z.eqb_neq. nia.
Qed.
Print Assumptions C62_matmul_left_matrix_refuted.

(** ** BatchNormalization of images. *)
Theorem C62_batch_normalisation : forall (N : num) raw_out C H W scale bias mean var eps x,
  one_sample raw_out -> run_dims raw_out = [1; C; H; W] ->
  zlen scale = C -> zlen bias = C -> zlen mean = C -> zlen var = C -> zlen x = prod [1; C; H; W] ->
  exists L, create_batch_norm raw_out (zlen scale) (zlen bias) (zlen mean) (zlen var) = Some L /\
    forall src out act, exists y, batch_normalised N [1; C; H; W] scale bias mean var eps x y /\
      layer_ok (batchnorm_c N src out (bl_C L) (bl_size L) scale mean var bias eps act) [(src, x)] out 0 (zlen y) (map act y).
Proof.
  intros N raw_out C H W scale bias mean var eps x HS EO Hs Hb Hm Hv Hx. rewrite prod4 in Hx.
  destruct HS as (HL & HP & _). pose proof (run_dims_pos raw_out HP) as PO. rewrite EO in PO.
  inversion PO as [|? ? _ PO1]; inversion PO1 as [|? ? HC PO2]; inversion PO2 as [|? ? HH PO3]; inversion PO3 as [|? ? HW _]; subst; clear PO PO1 PO2 PO3.
  assert (G : get_shape raw_out = [1; zlen scale; H; W]).
  { rewrite get_shape_eq by assumption. pose proof (run_dims_length raw_out) as L. rewrite EO in *. cbn in L. rewrite <- L. reflexivity. }
  set (C := zlen scale) in *.
  exists (mkBnLayer C (H * W)). split.
  - unfold create_batch_norm. rewrite G. cbn [dims3 bind]. rewrite find_size4, Hb, Hm, Hv, !Z.eqb_refl by assumption. reflexivity.
  - intros src out act. cbn [bl_C bl_size].
    set (y := tab2 C (H * W) (fun f k =>
       nadd N (ndiv N (nmul N (nthZ (n0 N) scale f) (nsub N (at2 (n0 N) (H * W) x f k) (nthZ (n0 N) mean f)))
                      (nsqrt N (nadd N (nthZ (n0 N) var f) eps)))
              (nthZ (n0 N) bias f))).
    assert (ZY : zlen y = C * (H * W)) by (unfold y, tab2; apply zlen_tab; nia).
    exists y. split.
    + split; [rewrite prod4, ZY; ring|]. intros idx HI. destruct (inside4 C H W idx HI) as (c & h & w & -> & Hc & Hh & Hw).
      cbv zeta. rewrite !el4. change (coord 1 [0; c; h; w]) with c.
      assert (A3 : forall z : list (T N), at3 (n0 N) H W z c h w = at2 (n0 N) (H * W) z c (w + W * h)) by (intros z; unfold at3, at2, idx3; f_equal; ring).
      rewrite !A3. unfold y. rewrite at2_tab2 by nia. reflexivity.
    + rewrite ZY. apply C28_batch_normalisation; auto; try nia.
Qed.
Print Assumptions C62_batch_normalisation.
Example C62_batch_normalisation_example :
  create_batch_norm [0; 3; 4; 5] 3 3 3 3 = Some (mkBnLayer 3 20) /\ one_sample [0; 3; 4; 5] /\ run_dims [0; 3; 4; 5] = [1; 3; 4; 5].
Proof. split; [reflexivity|]. split; [|reflexivity]. unfold one_sample. cbn. split; [lia|]. split; [repeat constructor; lia|reflexivity]. Qed.

(** Tensors of rank two and three (after a dense layer, on sequences): rejected
    as soon as there are two channels. *)
Theorem C62_batch_normalisation_low_rank_refuted : forall raw_out C rest nb nm nv, 1 < C ->
  Forall (fun n => 0 <= n) raw_out -> run_dims raw_out = 1 :: C :: rest -> (length rest <= 1)%nat ->
  create_batch_norm raw_out C nb nm nv = None.
Proof.
  intros raw_out C rest nb nm nv HC HP EO HR. pose proof (run_dims_length raw_out) as L. rewrite EO in L. cbn [length] in L.
  unfold create_batch_norm. rewrite get_shape_eq by (unfold zlen; lia || exact HP). rewrite EO, <- L.
  destruct rest as [|u [|v rest]]; cbn [length] in *; [| |lia]; cbn [Nat.sub repeat app dims3 bind];
    replace (C =? 1) with false by (symmetry; apply Z.eqb_neq; lia); rewrite !andb_false_r; reflexivity.
Qed.
Print Assumptions C62_batch_normalisation_low_rank_refuted.
