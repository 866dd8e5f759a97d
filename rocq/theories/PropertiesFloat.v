(** * C78: a network in double precision, all the way to a number. *)
From Coq Require Import ZArith List Lia Bool QArith Reals Lra.
Import ListNotations.
From Flocq Require Import Core.
From Verif Require Import CMem Tensor Num RealInst Activation Movement Linear Conv Pooling Pad Reduce Resize Graph GraphSpec GraphProofs4 Net NetProofs.
From Verif Require Import LayerKinds ModelProofs PropertiesNet PropertiesGraph Rounding RoundingProofs RoundingLayers PropertiesRounding FloatFormats.
Open Scope R_scope.
Open Scope list_scope.

(** 0 input 2; 1 Dense 2->2 + ReLU, rows (1 1) (-1 1); 2 Gemm 1x2 times 2x1
    (stored transposed), weights 1. *)
Definition small_graph := of_edges 3 [] [(0,1);(1,2)]%nat.
Definition small_layer (F : format) (n : nat) : layer (fnum F) :=
  match n with
  | 0%nat => mkLayer (fnum F) (KInput (fnum F) 2) LinearAct
  | 1%nat => mkLayer (fnum F) (KDense (fnum F) 2 2 [fl F 1; fl F (-1); fl F 1; fl F 1] [fl F 0; fl F 0]) ReLu
  | _ => mkLayer (fnum F) (KGemm (fnum F) false true None None 1 1 2 [fl F 1; fl F 1] [fl F 0]) LinearAct
  end.
Definition small_model (F : format) := mkModel (fnum F) small_graph (small_layer F) false.
Lemma small_supported (F : format) : supported (fnum F) (small_model F) 0.
Proof.
  constructor.
  - apply of_edges_linked. reflexivity.
  - apply (of_edges_acyclic _ _ _ (fun i => i)). reflexivity.
  - apply of_edges_no_repeat. repeat constructor; cbn; intuition congruence.
  - intros n Hn. cbn in Hn; destruct Hn as [<-|[<-|[<-|[]]]]; (split; [intros E; discriminate E|intros (w & E); discriminate E]).
  - apply of_edges_constants. reflexivity.
  - apply of_edges_single_input. reflexivity.
  - right. exists 2%Z. reflexivity.
  - intros n Hn Hp. cbn in Hn; destruct Hn as [<-|[<-|[<-|[]]]]; try (exfalso; apply Hp; reflexivity); (split; [left; exact I|]); cbn; repeat (split; [first [lia|reflexivity]|]); first [reflexivity|left; reflexivity].
  - intros n p cl C H W Hn EK EP. cbn in Hn; destruct Hn as [<-|[<-|[<-|[]]]]; discriminate.
Qed.
Lemma small_measured (F : format) : forall n, In n (dnn (md_graph _ (small_model F))) -> measured F (md_layer _ (small_model F) n).
Proof. intros n Hn. cbn in Hn; destruct Hn as [<-|[<-|[<-|[]]]]; (split; [exact I|first [exact I|split; [reflexivity|left; reflexivity]]]). Qed.

Lemma about_one (F : format) l b c : @all_about F l [b] [c] -> exists z, l = [z] /\ about z b c.
Proof. intros H. inversion H as [|z b' c' la lb lc Hz Hn]. subst. inversion Hn. subst. exists z. split; [reflexivity|exact Hz]. Qed.
Lemma small_network (F : format) p : (p = 53 \/ p = 24)%nat -> uu F = / 2 ^ p -> eta F <= / 2 ^ 100 -> exists s, tri_topo small_graph = Some s /\
  forall (m : mem (float F)) ninf q x y, declared (python_net (fnum F) ninf q (small_model F) s) s m ->
  m NnIn = [x; y] -> Rabs (val x) <= 1 -> Rabs (val y) <= 1 ->
  exists m' z, inference (python_net (fnum F) ninf q (small_model F) s) s m = Some m' /\ m' NnOut = [z] /\
    Rabs (val z - (Rmax 0 (val x + val y) + Rmax 0 (val y - val x))) <= / 2 ^ (p - 5).
Proof.
  intros HP HU HE. destruct (C78_program F (fl F 0) (fun _ => fl F 0) (small_model F) 0 (small_supported F) (small_measured F)) as (s & HS & _).
  exists s. split; [exact HS|]. intros m ninf q x y D E HX HY.
  destruct (C78_program F ninf q (small_model F) 0 (small_supported F) (small_measured F)) as (s' & HS' & HI). rewrite HS in HS'. injection HS' as <-.
  specialize (HI m [Within 1 0; Within 1 0] D). rewrite E in HI.
  assert (AB : all_about [x; y] (map val [x; y]) [Within 1 0; Within 1 0]).
  { assert (Z : forall t : float F, Rabs (val t) <= 1 -> about t (val t) (Within 1 0)) by (intros t Ht; split; [exact Ht|]; rewrite Rminus_diag_eq by reflexivity; rewrite Rabs_R0; lra).
    constructor; [apply Z; assumption|]. constructor; [apply Z; assumption|constructor]. }
  destruct (HI AB) as (m' & ex & bo & EI & EE & EB & A). clear HI. exists m'.
  assert (OS : order s = [0; 1; 2]%nat) by (vm_compute in HS; injection HS as <-; reflexivity). rewrite OS in A. cbn [last] in A.
  assert (E0 := EE 0%nat ltac:(cbn; tauto)). assert (E1 := EE 1%nat ltac:(cbn; tauto)). assert (E2 := EE 2%nat ltac:(cbn; tauto)).
  assert (B0 := EB 0%nat ltac:(cbn; tauto)). assert (B1 := EB 1%nat ltac:(cbn; tauto)). assert (B2 := EB 2%nat ltac:(cbn; tauto)).
  assert (P1 : forall v, md_post Rnum (exact_model F (small_model F)) s v = v) by (intros; unfold md_post; rewrite OS; reflexivity).
  assert (P2 : forall v, md_post (bnum F) (bound_model F (small_model F)) s v = v) by (intros; unfold md_post; rewrite OS; reflexivity).
  rewrite P1, P2 in A.
  assert (Q1 : forall v, pre (documented_net Rnum 0 Q2R (exact_model F (small_model F)) s) v = v) by (intros; unfold documented_net, net_with; cbn [pre]; unfold md_pre; rewrite OS; reflexivity).
  assert (Q2 : forall v, pre (bound_net F q (small_model F) s) v = v) by (intros; unfold bound_net, net_with; cbn [pre]; unfold md_pre; rewrite OS; reflexivity).
  rewrite Q1 in E0, E1, E2. rewrite Q2 in B0, B1, B2.
  assert (W1 : val (fl F 1) = 1) by (rewrite val_fl; apply rnd_1). assert (W0 : val (fl F 0) = 0) by (rewrite val_fl; apply rnd_0).
  assert (W2 : val (fl F (-1)) = -1) by (rewrite val_fl; assert (X : (-1) = Ropp 1) by lra; rewrite X, rnd_opp, rnd_1; reflexivity).
  Ltac values E := cbv -[val rnd uu eta fl IZR Rmax Rabs Rplus Rmult Rminus Rdiv Ropp Rltb Rlt Rle] in E.
  values E0. values E1. rewrite E0 in E1. values E1. rewrite W0, W1, W2 in E1. values E2. rewrite E1 in E2. values E2. rewrite W0, W1 in E2.
  values B0. values B1. rewrite B0 in B1. values B1. rewrite W0, W1, W2 in B1. values B2. rewrite B1 in B2. values B2. rewrite W0, W1 in B2.
  assert (A1 : Rabs 1 = 1) by (apply Rabs_pos_eq; lra). assert (A2 : Rabs (-1) = 1) by (rewrite Rabs_left; lra). assert (A0 : Rabs 0 = 0) by apply Rabs_R0.
  assert (D0 : forall t, t - t = 0) by (intros; ring).
  rewrite ?D0, ?A0, ?A1, ?A2 in B2. clear B0 B1 E0 E1 EE EB W0 W1 W2 P1 P2 Q1 Q2.
  rewrite E2, B2 in A. destruct (about_one F _ _ _ A) as (z & Ez & Hz). exists z. split; [exact EI|]. split; [exact Ez|].
  destruct Hz as (_ & Hz). assert (RL : forall t, (if Rltb 0 t then t else 0) = Rmax 0 t) by (intros t; unfold Rltb, Rmax; destruct (Rlt_dec 0 t), (Rle_dec 0 t); lra).
  rewrite !RL in Hz. replace (0 + val x * 1 + val y * 1 + 0) with (val x + val y) in Hz by ring. replace (0 + val x * -1 + val y * 1 + 0) with (val y - val x) in Hz by ring.
  replace (0 + Rmax 0 (val x + val y) * 1 + Rmax 0 (val y - val x) * 1 + 0) with (Rmax 0 (val x + val y) + Rmax 0 (val y - val x)) in Hz by ring.
  eapply Rle_trans; [exact Hz|]. pose proof (eta_pos F) as E0. clear - HP HU HE E0. set (e := eta F) in *. clearbody e. rewrite HU. clear HU.
  destruct HP as [-> | ->]; cbn [Nat.sub]; rewrite !pow_IZR; cbn [Z.pow Z.pow_pos Pos.iter Z.mul Pos.mul Z.of_nat Pos.of_succ_nat Pos.succ]; rewrite !pow_IZR in HE; cbn in HE; cbn; lra.
Qed.

(** Every input of the unit square, whatever the arrays held: the generated program
    is within 2^-48 (double) or 2^-19 (float) of max(0, x+y) + max(0, y-x). *)
Example C78_program_example : forall F p, (F = binary64 /\ p = 53%nat) \/ (F = binary32 /\ p = 24%nat) ->
  exists s, tri_topo small_graph = Some s /\
  forall (m : mem (float F)) ninf q x y, declared (python_net (fnum F) ninf q (small_model F) s) s m ->
  m NnIn = [x; y] -> Rabs (val x) <= 1 -> Rabs (val y) <= 1 ->
  exists m' z, inference (python_net (fnum F) ninf q (small_model F) s) s m = Some m' /\ m' NnOut = [z] /\
    Rabs (val z - (Rmax 0 (val x + val y) + Rmax 0 (val y - val x))) <= / 2 ^ (p - 5).
Proof.
  assert (BP : forall k, bpow radix2 (- Z.of_nat k) = / 2 ^ k) by (intros k; rewrite bpow_opp, <- Raux.IZR_Zpower_nat, pow_IZR, Zpower_nat_Z; reflexivity).
  intros F p H. apply small_network.
  - destruct H as [(_ & ->)|(_ & ->)]; auto.
  - destruct H as [(-> & ->)|(-> & ->)]; [rewrite binary64_u; apply (BP 53%nat)|rewrite binary32_u; apply (BP 24%nat)].
  - destruct H as [(-> & _)|(-> & _)]; [rewrite binary64_eta|rewrite binary32_eta]; rewrite <- (BP 100%nat); apply bpow_le; lia.
Qed.
Print Assumptions C78_program_example.

(** Concrete cases of the single-layer theorems in double precision. *)
Example C78_dense_example : exists y,
  layer_ok (dense_c (fnum binary64) (Out 0) (Out 0) 2 1 [fl binary64 1; fl binary64 (/ 3)] [fl binary64 0] (fun v => v)) [(Out 0, [fl binary64 (/ 10); fl binary64 3])] (Out 0) 1 1 y.
Proof. destruct (C78_dense binary64 (Out 0) (Out 0) 2 1 [fl binary64 1; fl binary64 (/ 3)] [fl binary64 0] [fl binary64 (/ 10); fl binary64 3]) as (y & H & _); try discriminate; try reflexivity; try lia. exists y. exact H. Qed.
Example C78_convolution_example : let c := mkConv 1 2 2 1 1 1 2 2 1 1 0 0 0 0 in
  conv_dims (fnum binary32) c (repeat (fl binary32 (/ 3)) 4) [fl binary32 1] (repeat (fl binary32 (/ 7)) 4) /\ dilation c = 1%Z.
Proof. split; [|reflexivity]. constructor; cbn; try lia; reflexivity. Qed.
Example C78_gemm_example : exists y,
  layer_ok (gemm_c (fnum binary64) (Out 0) (Out 0) false true None None 1 1 2 [fl binary64 1; fl binary64 (/ 3)] [fl binary64 0] (fun v => v)) [(Out 0, [fl binary64 (/ 10); fl binary64 3])] (Out 0) 1 1 y.
Proof. destruct (C78_gemm binary64 (Out 0) (Out 0) false true 1 1 2 [fl binary64 1; fl binary64 (/ 3)] [fl binary64 0] [fl binary64 (/ 10); fl binary64 3]) as (y & H & _); try discriminate; try reflexivity; try lia. exists y. exact H. Qed.

