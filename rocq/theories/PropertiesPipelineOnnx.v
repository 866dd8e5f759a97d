(** * An ONNX model (Conv without a bias, Relu, Flatten, Gemm) meets every
    hypothesis of C76_onnx_partial. *)
From Coq Require Import String.
From Coq Require Import ZArith List Lia Bool Reals Lra QArith Sorted.
Import ListNotations.
From Verif Require Import CMem Tensor Num RealInst Activation Graph GraphSpec Import ImportSpec LayerKinds Net NetProofs PropertiesNet Pattern FusionSafe.
From Verif Require Import OnnxSpec OnnxWindowSpec OnnxLinearSpec OnnxMiscSpec ExportSpec OnnxModelSpec OnnxModel OnnxModelOps OnnxModelNode OnnxModelNet PropertiesOnnxModel.
Open Scope string_scope.
Open Scope list_scope.
Open Scope Z_scope.

Definition ex76 : source := mkSource 13 [("x", [0; 1; 2; 2])]
  [("w", TFloat [1; 1; 2; 2] ex72_w); ("w2", TFloat [4; 1] [1; 1; 1; 1]%R); ("c2", TFloat [1] [7]%R)]
  [mkONode "Conv" [("kernel_shape", AInts [2; 2]); ("auto_pad", AStr "SAME_UPPER")] ["x"; "w"] "c";
   mkONode "Relu" [] ["c"] "r";
   mkONode "Flatten" [("axis", AInt 1)] ["r"] "f";
   mkONode "Gemm" [] ["f"; "w2"; "c2"] "y"]
  [("c", [0; 1; 2; 2]); ("r", [0; 1; 2; 2]); ("f", [0; 4])]
  [("y", [0; 1])].
Definition ex76_y (x : list R) : list R :=
  [1 * (0 + nthZ 0 (ex72_r x) 0 * 1 + nthZ 0 (ex72_r x) 1 * 1 + nthZ 0 (ex72_r x) 2 * 1 + nthZ 0 (ex72_r x) 3 * 1) + 1 * 7]%R.
Definition ex76_env (x : list R) (nm : string) : option tensor :=
  match find (fun e => String.eqb nm (fst e)) (
    [("x", TFloat [1; 1; 2; 2] x); ("c", TFloat [1; 1; 2; 2] (ex72_c x)); ("r", TFloat [1; 1; 2; 2] (ex72_r x));
     ("f", TFloat [1; 4] (ex72_r x)); ("y", TFloat [1; 1] (ex76_y x))] ++ s_init ex76)
  with Some e => Some (snd e) | None => None end.
Lemma ex76_runs x : zlen x = 4 -> runs ex76 (fun _ => x) (ex76_env x).
Proof.
  intros HX. destruct (ex72_runs x HX) as (_ & _ & _ & N72 & _). split; [reflexivity|]. split; [|split; [|split]].
  - intros nm ds [E|[]]. injection E as <- <-. reflexivity.
  - intros nm t H. cbn in H. repeat (destruct H as [E|H]; [injection E as <- <-; reflexivity|]). destruct H.
  - intros nd Hn. each Hn; (eexists; split; [reflexivity|]); cbn [n_op n_attrs n_inputs map].
    + destruct (N72 _ (or_introl eq_refl)) as (t & ET & HT). apply OnnxModelOps3.some_inj in ET. subst t. exact HT.
    + apply o_basic; [cbn; intuition discriminate|]. apply (h_unary "Relu" [] ORelu). reflexivity.
    + apply o_basic; [cbn; intuition discriminate|]. apply (h_flatten [("axis", AInt 1)] [1; 1; 2; 2] 1 (ex72_r x) (ex72_r x)); [reflexivity|cbn; lia|].
      split; [reflexivity|]. intros idx Hi. apply inside4 in Hi. destruct Hi as (i & j & k & l & -> & Hi & Hj & Hk & Hl). unfold el. cbn. f_equal; lia.
    + apply o_basic; [cbn; intuition discriminate|]. apply (h_gemm [] 0 0 1%R 1%R 1 1 4 [1] (ex72_r x) [1; 1; 1; 1]%R [7]%R (ex76_y x)); try reflexivity.
      * split; [intros ds [<-|[<-|[]]]; cbn; lia|]. split; [exists [1; 1]; split; [right; left; reflexivity|reflexivity]|]. intros k Hk. cbn in Hk.
        split; [intros ds [<-|[<-|[]]]; do 2 (destruct k as [|k]; [cbn; lia|]); lia|]. exists [1; 1]. split; [right; left; reflexivity|]. do 2 (destruct k as [|k]; [reflexivity|]); lia.
      * split; [reflexivity|]. intros i j Hi Hj. assert (i = 0) by lia. assert (j = 0) by lia. subst i j. reflexivity.
  - intros nm t H. unfold ex76_env in H. cbn [find fst s_init ex76 Datatypes.app] in H.
    repeat (match type of H with context [if String.eqb nm ?k then _ else _] => destruct (String.eqb nm k) end; [injection H as <-; cbn [snd sized_tensor]; try (split; [repeat constructor; lia|]); first [exact HX|reflexivity]|]). discriminate.
Qed.
Lemma ex76_produced nm : In nm ["x"; "c"; "r"; "f"; "y"] <-> produced ex76 nm.
Proof. unfold produced. cbn. tauto. Qed.
Lemma ex76_hypotheses : forall x, zlen x = 4 ->
  well_formed ex76 "x" "y" /\ all_covered ex76 /\ exclusive ex76 /\ runs ex76 (fun _ => x) (ex76_env x) /\ annotated ex76 (ex76_env x) /\
  ex76_env x "y" = Some (TFloat [1; 1] (ex76_y x)) /\ reads_once ex76.
Proof.
  intros x HX. assert (P : forall nm, In nm ["x"; "c"; "r"; "f"; "y"] -> produced ex76 nm) by (intros nm; apply ex76_produced).
  split; [|split; [|split; [|split; [|split; [|split]]]]].
  - constructor.
    + reflexivity.
    + cbn. tauto.
    + cbn. repeat (constructor; [cbn; intuition discriminate|]). constructor.
    + cbn. intuition discriminate.
    + intros before nd after E nm H. do 4 (destruct before as [|? before]; [injection E as <- _; cbn in H; cbn; intuition auto|injection E as <- E]). destruct before; discriminate.
    + intros nm H NE. cbn in H. assert (X : exists k n, nth_error (s_nodes ex76) k = Some n /\ In nm (n_inputs n)).
      { destruct H as [->|[<-|[<-|[<-|[<-|[]]]]]]; [exists 0%nat|exists 1%nat|exists 2%nat|exists 3%nat|congruence]; (eexists; split; [reflexivity|cbn; auto]). }
      destruct X as (k & n & HN & HI). exists n. split; [eapply nth_error_In; exact HN|exact HI].
  - intros nd Hn. each Hn; cbn [n_inputs]; (split; [|eexists; split; [left; reflexivity|apply P; cbn; tauto]]).
    + apply (v_conv ex76 _ 2 2 1 1 AutoUpper); try reflexivity; try lia; [apply P; cbn; tauto|cbn; lia|]. intros nm [<-|[]]. eexists. left. reflexivity.
    + apply v_unary; [cbn; tauto|apply P; cbn; tauto].
    + apply (v_reshape ex76 "Flatten" _ "r" []); [cbn; tauto|apply P; cbn; tauto|intros nm []].
    + apply (v_gemm ex76 [] "f" "w2" "c2" [7]%R 1 "y"); [left; reflexivity|apply P; cbn; tauto|eexists; right; left; reflexivity|right; right; left; reflexivity|].
      intros ds H. unfold announced in H. cbn in H. repeat (destruct H as [E|H]; [try discriminate E; injection E as <-; reflexivity|]). destruct H.
  - intros before nd after i rest E OP EI other HO HI.
    do 4 (destruct before as [|? before];
      [injection E as <- <-; cbn in OP; try (exfalso; intuition discriminate); injection EI as <- _; cbn in HO; repeat (destruct HO as [<-|HO]; [cbn in HI; intuition discriminate|]); destruct HO
      |injection E as <- E]). destruct before; discriminate.
  - exact (ex76_runs x HX).
  - constructor.
    + intros nm H. apply ex76_produced in H. cbn in H. destruct H as [<-|[<-|[<-|[<-|[<-|[]]]]]]; eexists; unfold announced; cbn; eauto 10.
    + intros nm ds _ H. unfold announced in H. cbn in H. repeat (destruct H as [E|H]; [injection E as <- <-; split; [cbn; lia|]; split; [repeat constructor; lia|cbn; try reflexivity; lia]|]). destruct H.
    + intros nm ds H. unfold announced in H. cbn in H. repeat (destruct H as [E|H]; [injection E as <- <-; eexists; reflexivity|]). destruct H.
  - reflexivity.
  - intros nd Hn. each Hn; cbn [n_inputs]; repeat (constructor; [cbn; intuition discriminate|]); constructor.
Qed.
(** What the optimiser looks at. *)
Definition summary (md : model Rnum) :=
  (map (fun n => (n, is_activation_layer Rnum (lk Rnum md n), is_conv2d Rnum (lk Rnum md n), is_batchnorm Rnum (lk Rnum md n), is_multiply Rnum (lk Rnum md n),
                  match lact Rnum (md_layer Rnum md n) with LinearAct => 0 | ReLu => 1 | _ => 2 end)) (dnn (md_graph Rnum md)),
   map (previous_layer (md_graph Rnum md)) (dnn (md_graph Rnum md)), md_last Rnum md).
Lemma ex76_safe md : summary md =
  ([(0%nat, false, false, false, false, 0); (1%nat, false, true, false, false, 0); (2%nat, true, false, false, false, 1); (3%nat, false, false, false, false, 0)],
   [[]; [0%nat]; [1%nat]; [2%nat]], false) -> fusion_safe Rnum md 0.
Proof.
  unfold summary. intros S. injection S as S1 S2 S3.
  assert (D : dnn (md_graph Rnum md) = [0; 1; 2; 3]%nat).
  { apply (f_equal (map (fun t => fst (fst (fst (fst (fst t))))))) in S1. rewrite map_map in S1. cbn [fst map] in S1. rewrite map_id in S1. exact S1. }
  rewrite D in S1, S2. cbn [map] in S1, S2. injection S1 as A0 B0 C0 M0 L0 A1 B1 C1 M1 L1 A2 B2 C2 M2 L2 A3 B3 C3 M3 L3. injection S2 as P0 P1 P2 P3.
  assert (ACT : forall n, In n (dnn (md_graph Rnum md)) -> is_activation_layer Rnum (lk Rnum md n) = true -> n = 2%nat).
  { intros n Hn E. rewrite D in Hn. destruct Hn as [<-|[<-|[<-|[<-|[]]]]]; [rewrite A0 in E|rewrite A1 in E|reflexivity|rewrite A3 in E]; discriminate. }
  assert (BN : forall n, In n (dnn (md_graph Rnum md)) -> is_batchnorm Rnum (lk Rnum md n) = true -> False).
  { intros n Hn E. rewrite D in Hn. destruct Hn as [<-|[<-|[<-|[<-|[]]]]]; [rewrite C0 in E|rewrite C1 in E|rewrite C2 in E|rewrite C3 in E]; discriminate. }
  constructor.
  - intros p n Hp Hn E _ _ PR _. apply ACT in E; [|exact Hn]. subst n. rewrite P2 in PR. injection PR as <-. split; [discriminate|].
    destruct (lk Rnum md 1); try discriminate B1. exact I.
  - intros n Hn E. apply ACT in E; [|exact Hn]. subst n. intros X. rewrite X in L2. discriminate.
  - intros p n C H W sc me va bi eps d _ Hn E. exfalso. apply (BN n Hn). rewrite E. reflexivity.
  - intros p n _ Hn E. exfalso. exact (BN n Hn E).
  - rewrite S3. discriminate.
  - intros p n m _ Hn _ E X. apply ACT in E; [|exact Hn]. subst n. rewrite X in L2. discriminate.
Qed.
Example C76_onnx_example : forall x, zlen x = 4 ->
  well_formed ex76 "x" "y" /\ all_covered ex76 /\ exclusive ex76 /\ runs ex76 (fun _ => x) (ex76_env x) /\ annotated ex76 (ex76_env x) /\
  ex76_env x "y" = Some (TFloat [1; 1] (ex76_y x)) /\ reads_once ex76 /\
  exists md s, OnnxModel.load_model SixLoops ex76 = Some (md, s) /\ StronglySorted lt (order s) /\ fusion_safe Rnum md 0.
Proof.
  intros x HX. destruct (ex76_hypotheses x HX) as (WF & CV & EX & RU & AN & EO & RO). repeat (split; [assumption|]).
  destruct (OnnxModelNet.loaded ex76 "x" "y" SixLoops _ _ WF RU AN CV EX) as (nds & g & cs & s & HN & EL & LM & ES & HO & HI).
  eexists _, s. split; [exact LM|].
  assert (S : option_map (fun r => (summary (fst r), order (snd r))) (OnnxModel.load_model SixLoops ex76) =
    Some ([(0%nat, false, false, false, false, 0); (1%nat, false, true, false, false, 0); (2%nat, true, false, false, false, 1); (3%nat, false, false, false, false, 0)],
     [[]; [0%nat]; [1%nat]; [2%nat]], false, [0; 1; 2; 3]%nat)) by reflexivity.
  rewrite LM in S. cbn [option_map fst snd] in S. apply OnnxModelOps3.some_inj in S. split.
  - pose proof (f_equal snd S) as X. cbn [snd] in X. rewrite <- X. repeat (constructor; [|repeat (constructor; [lia|]); constructor]). constructor.
  - apply ex76_safe. exact (eq_sym (f_equal fst S)).
Qed.
