(** * A run of the exported graph gives every layer the value of the documented
    network (used by C68). *)
From Coq Require Import String.
From Coq Require Import ZArith List Lia Bool Reals Lra QArith Permutation.
Import ListNotations.
Open Scope Z_scope.
From Verif Require Import CMem Tensor Num RealInst Activation PropertiesActivation Conv Pooling PropertiesPooling Movement MovementProofs Pad Linear Reduce Graph GraphSpec LayerKinds
  OnnxSpec OnnxOpsProofs OnnxWindowSpec OnnxLinearSpec OnnxMiscSpec PropertiesOnnxOps ExportSpec Export ExportNames ExportOps ExportOps2.
From Verif Require Broadcast BroadcastProofs.
Open Scope Z_scope.

(** ** Which layers the exporter writes correctly.  [dss] are the dimensions of
    the ONNX tensors it reads and [od] those of the tensor it defines. *)
Definition exportable (l : layer Rnum) (e : extra) (dss : list (list Z)) (od : list Z) : Prop :=
  accepted Rnum (lact Rnum l) /\
  match lkind Rnum l, dss with
  | KActivation _ n, [ds] => od = ds /\ match lact Rnum l with LinearAct | Clip _ _ => False | LeakyReLu a => a = (1 / 100)%R | _ => True end
  | KDense _ prev m _ _, [ds] => 0 <= prev /\ 0 <= m /\ exists lead, Forall (eq 1) lead /\ ds = lead ++ [prev] /\ od = lead ++ [m]
  | KGemm _ tA tB (Some _) (Some _) m n k _ _, [ds] => 0 <= m /\ 0 <= n /\ 0 <= k /\ ds = (if tA then [k; m] else [m; k]) /\ od = [m; n]
  | KBatchNorm _ C H W _ _ _ _ _, [ds] => 0 <= C /\ 0 <= H /\ 0 <= W /\ ds = [1; C; H; W] /\ od = ds
  | KTranspose _ C H W p1 p2 p3, [ds] =>
      0 <= C /\ 0 <= H /\ 0 <= W /\ is_perm p1 p2 p3 /\ x_perm0 e = 0 /\ ds = [1; C; H; W] /\ od = [1; dim C H W p1; dim C H W p2; dim C H W p3]
  | KConcat _ axis OC OH OW shapes, _ =>
      1 <= axis <= 3 /\ 0 < OC /\ 0 < OH /\ 0 < OW /\ shapes <> [] /\
      dss = map (fun s => let '(c, h, w) := s in [1; c; h; w]) shapes /\ od = [1; OC; OH; OW] /\
      Forall (fun s => let '(c, h, w) := s in 0 <= c /\ 0 <= h /\ 0 <= w /\
        (axis <> 1 -> c = OC) /\ (axis <> 2 -> h = OH) /\ (axis <> 3 -> w = OW)) shapes /\
      dim OC OH OW axis = fold_right (fun s a => let '(c, h, w) := s in dim c h w axis + a) 0 shapes
  | KFlatten _ cl _ _ _, [ds] => cl = false /\ lact Rnum l = LinearAct /\ od = [1; prod ds]
  | KConv _ _ c _ _, [ds] =>
      0 <= ic c /\ 0 <= nf c /\ 0 <= oh c /\ 0 <= ow c /\ 0 <= kh c /\ 0 <= kw c /\ pt c = pr c /\
      oh c = onnx_length (ih c) (pt c, pb c) (kh c) (strides c) (dilation c) /\
      ow c = onnx_length (iw c) (pl c, pr c) (kw c) (strides c) (dilation c) /\
      ds = [1; ic c; ih c; iw c] /\ od = [1; nf c; oh c; ow c]
  | KMaxPool _ P, [ds] | KAvgPool _ P, [ds] =>
      pool_accepts P /\ p_top P = p_right P /\ ds = [1; p_C P; p_IH P; p_IW P] /\ od = [1; p_C P; p_OH P; p_OW P]
  | KPad _ mode C H W P, [ds] =>
      pads_ok C H W P /\ constant_given mode (x_constant e) /\ x_pad_before0 e = 0 /\ x_pad_after0 e = 0 /\ x_axes e = [] /\
      ds = [1; C; H; W] /\ od = [1; C + pd_front P + pd_back P; H + pd_top P + pd_bottom P; W + pd_left P + pd_right P]
  | KBroadcast _ k shapes cst so, _ =>
      0 <= Broadcast.sC so /\ 0 <= Broadcast.sH so /\ 0 <= Broadcast.sW so /\ Forall2 shaped4 dss shapes /\ shaped4 od so /\
      match k, cst with
      | (Broadcast.BSub | Broadcast.BMul | Broadcast.BDiv), None => (List.length dss = 1 \/ List.length dss = 2)%nat /\ broadcast_shape dss od
      | (Broadcast.BSub | Broadcast.BMul | Broadcast.BDiv), Some c =>
          List.length dss = 1%nat /\ shaped4 (squeezed (fst c)) (fst c) /\ broadcast_shape (dss ++ [squeezed (fst c)]) od
      | (Broadcast.BMax | Broadcast.BMin), None => dss <> [] /\ broadcast_shape dss od
      | _, _ => False end
  | KReduce _ k C H W axes noop, [ds] =>
      0 < C /\ 0 < H /\ 0 < W /\ Forall (fun a => 1 <= a <= 3) axes /\ ds = [1; C; H; W] /\ od = reduce_dims (x_keepdims e) C H W axes noop
  | KSoftmax _ C H W axis, [ds] =>
      0 < C /\ 0 < H /\ 0 < W /\ (1 <= List.length ds)%nat /\ shaped4 ds (Broadcast.mkShape C H W) /\
      (if one_dimension C H W then W = C * H * W else axis = 3) /\ od = ds
  | _, _ => False
  end.

(** The size of the output of a node. *)
Lemma prod_dropped p axes ds : prod (dropped_dims p axes ds) = prod (reduced_dims p axes ds).
Proof.
  revert p. induction ds as [|n r IH]; intros p; [reflexivity|]. cbn [dropped_dims reduced_dims]. destruct (existsb (Nat.eqb p) axes); cbn [Datatypes.app prod]; rewrite IH; lia.
Qed.
Lemma node_length op a ins ds y : node_holds op a ins (TFloat ds y) ->
  (forall ds x, hd None ins = Some (TFloat ds x) -> zlen x = prod ds) -> zlen y = prod ds.
Proof.
  intros H HX. remember (TFloat ds y) as out eqn:EO. destruct H; injection EO as <- <-; cbn [hd] in HX;
    try (rewrite zlen_map; apply HX; reflexivity); try (apply HX; reflexivity).
  all: repeat match goal with H : _ \/ _ |- _ => destruct H | H : exists _, _ |- _ => destruct H | H : _ /\ _ |- _ => destruct H end.
  all: try (match goal with H : convolved _ _ _ _ _ _ _ _ _ _ _ _ _ _ _ _ _ _ _ _ |- _ => destruct H as (H & _) end; rewrite prod4; assumption).
  all: try (match goal with H : max_pooled _ _ _ _ _ _ _ _ _ _ _ _ _ _ _ _ |- _ => destruct H as (H & _) end; rewrite prod4; assumption).
  all: try (match goal with H : average_pooled _ _ _ _ _ _ _ _ _ _ _ _ _ _ _ _ _ |- _ => destruct H as (H & _) end; rewrite prod4; assumption).
  all: try (match goal with H : batch_normalised _ _ _ _ _ _ _ _ _ |- _ => destruct H as (H & _) end; assumption).
  all: try (match goal with H : elementwise _ _ _ _ _ |- _ => destruct H as (H & _) end; assumption).
  all: try (match goal with H : concatenated _ _ _ _ _ |- _ => destruct H as (H & _) end; assumption).
  all: try (match goal with H : transposed_nd _ _ _ _ _ |- _ => destruct H as (H & _) end; assumption).
  all: try (match goal with H : flattened _ _ _ _ _ |- _ => destruct H as (H & _) end; assumption).
  all: try (match goal with H : gathered _ _ _ _ _ _ |- _ => destruct H as (H & _) end; assumption).
  all: try (match goal with H : gathered_elements _ _ _ _ _ _ _ |- _ => destruct H as (H & _) end; assumption).
  all: try (match goal with H : gemm_value _ _ _ _ _ _ _ _ _ _ _ _ _ |- _ => destruct H as (H & _) end; etransitivity; [eassumption|cbn [prod]; ring]).
  all: try (match goal with H : softmaxed _ _ _ _ _ |- _ => destruct H as (H & _) end; assumption).
  all: try (match goal with H : padded _ _ _ _ _ _ _ _ |- _ => destruct H as (H & _) end; assumption).
  all: try (match goal with H : tiled _ _ _ _ _ |- _ => destruct H as (H & _) end; assumption).
  all: try (match goal with H : dotted _ _ _ _ _ _ _ |- _ => destruct H as (H & _) end; assumption).
  - match goal with H : reduced _ _ _ _ _ _ |- _ => destruct H as (H & _) end. unfold reduced_shape. destruct (kd =? 0); [rewrite prod_dropped|]; assumption.
Qed.

Section Run.
  Context (ninf : R) (q : Q -> R) (md : model Rnum) (ex : nat -> extra) (val : nat -> list R) (dims : nat -> list Z).
  Notation prevs n := (previous_layer (md_graph Rnum md) n).
  Notation idR := (fun v : R => v).
  Notation mean := (meaning Rnum ninf q).
  Notation mean_with := (meaning_with Rnum ninf q).
  Definition operands (n : nat) : list (list R) := map val (prevs n).
  Definition before_activation (n : nat) : list R := mean_with idR (md_layer Rnum md n) (operands n).
  (** The tensor defined by the node of the layer itself. *)
  Definition node_value (n : nat) : list R := if fused md n then before_activation n else mean (md_layer Rnum md n) (operands n).

  (** What is known about the tensors of a run before layer [n]. *)
  Definition operands_known (env : string -> option tensor) (n : nat) : Prop :=
    env ""%string = None /\
    (forall p, In p (prevs n) -> env (base md p) = Some (TFloat (dims p) (val p)) /\ zlen (val p) = prod (dims p)) /\
    (forall nm t, In (nm, t) (inits_of md ex n) -> env nm = Some t).

  Lemma names_known env n : operands_known env n -> map env (input_names md n) = map (fun p => Some (TFloat (dims p) (val p))) (prevs n).
  Proof.
    intros (_ & H & _). unfold input_names. rewrite map_map. apply map_ext_in. intros p Hp. apply H. exact Hp.
  Qed.
  Lemma linear_id l xs : lact Rnum l = LinearAct -> mean l xs = mean_with idR l xs.
  Proof. intros E. unfold meaning. rewrite E. reflexivity. Qed.
  Lemma node_value_eq n : (forall s, lk Rnum md n <> KActivation Rnum s) -> node_value n = before_activation n.
  Proof.
    intros NA. unfold node_value. destruct (fused md n) eqn:F; [reflexivity|]. apply linear_id. unfold fused in F. unfold lk in NA.
    destruct (lkind Rnum (md_layer Rnum md n)); try (exfalso; eapply NA; reflexivity); destruct (lact Rnum (md_layer Rnum md n)); congruence.
  Qed.

  Lemma value_of n : (forall s, lk Rnum md n <> KActivation Rnum s) -> forall y, mean_with idR (md_layer Rnum md n) (map val (prevs n)) = y -> node_value n = y.
  Proof. intros NA y <-. apply node_value_eq. exact NA. Qed.

  Lemma activation_holds (a : activation Rnum) od x op at_ bounds : accepted Rnum a ->
    match a with
    | ReLu => op = "Relu" | Silu => op = "Silu" | TanH => op = "Tanh" | Sigmoid => op = "Sigmoid" | Exponential => op = "Exp" | Logarithm => op = "Log"
    | LeakyReLu v => op = "LeakyRelu" /\ float_attr "alpha" (Some (1 / 100)%R) at_ = Some v
    | Clip mx mn => op = "Clip" /\ bounds = [Some (TFloat [] [mn]); Some (TFloat [] [mx])]
    | LinearAct => False end%string ->
    (match a with Clip _ _ => True | _ => bounds = [] end) ->
    node_holds op at_ (Some (TFloat od x) :: bounds) (TFloat od (map (compute Rnum a) x)).
  Proof.
    intros A HO HB.
    assert (U : forall u, (forall v, compute Rnum a v = onnx_unary u v) -> unary_of op at_ = Some u -> bounds = [] ->
      node_holds op at_ (Some (TFloat od x) :: bounds) (TFloat od (map (compute Rnum a) x))).
    { intros u HU EU ->. rewrite (map_ext _ (onnx_unary u)) by exact HU. apply h_unary. exact EU. }
    destruct a.
    - subst op. apply (U OSigmoid); [intros; apply unary_simple|reflexivity|exact HB].
    - subst op bounds. rewrite (map_ext _ (fun v => (v / (1 + exp (- v)))%R)) by (intros; apply unary_silu). apply h_silu.
    - subst op. apply (U ORelu); [intros; apply unary_simple|reflexivity|exact HB].
    - destruct HO as (-> & HO). apply (U (OLeakyRelu (Some alpha))); [intros; apply unary_leaky|cbn [unary_of String.eqb Ascii.eqb Bool.eqb]|exact HB].
      unfold unary_of. cbn. rewrite HO. reflexivity.
    - subst op. apply (U OTanh); [intros; apply unary_simple|reflexivity|exact HB].
    - destruct HO.
    - subst op. apply (U OExp); [intros; apply unary_simple|reflexivity|exact HB].
    - subst op. apply (U OLog); [intros; apply unary_simple|reflexivity|exact HB].
    - destruct HO as (-> & ->). rewrite (map_ext _ (onnx_unary (OClip (Some min) (Some max)))) by (intros; apply unary_clip; exact A).
      apply h_clip; [cbn; lia|constructor|constructor].
  Qed.

  Ltac one HX EP := match type of HX with context [map dims ?l] => destruct l as [|? [|? ?]] eqn:EP; cbn [map] in HX; try (exfalso; exact HX) end.
  Ltac found SI := eapply SI; [reflexivity|cbn [snd In Datatypes.app]; auto].
  Ltac start := eexists _, _; split; [reflexivity|]; split; [reflexivity|]; split; [reflexivity|]; cbn [n_op n_attrs n_inputs].
  Ltac val_is KE EP := apply f_equal; apply value_of; [intros ?; unfold lk; rewrite KE; discriminate|]; unfold meaning_with; rewrite KE, EP; cbn [map].

  Definition neutral_of (k : Broadcast.bkind) : R := match k with Broadcast.BAdd | Broadcast.BSub => 0%R | _ => 1%R end.
  Lemma export_two n k shapes cst so : lk Rnum md n = KBroadcast Rnum k shapes cst so -> two_operands k ->
    export_layer md ex n =
    let op := three (broadcast_name k) in let const := named md n "_constant" in
    match cst with
    | Some c => Some ([mkONode op [] (input_names md n ++ [const]) (output_name md n)], [(const, TFloat (squeezed (fst c)) (snd c))])
    | None => if Nat.eqb (List.length (prevs n)) 1
              then Some ([mkONode op [] (input_names md n ++ [const]) (output_name md n)], [(const, TFloat [] [neutral_of k])])
              else Some ([mkONode op [] (input_names md n) (output_name md n)], [])
    end.
  Proof.
    intros E TK. unfold export_layer. unfold lk in E. rewrite E. cbv zeta. unfold input_names. rewrite map_length.
    destruct TK as [->|[->| ->]]; (destruct cst; [reflexivity|]); destruct (Nat.eqb (List.length (prevs n)) 1); reflexivity.
  Qed.
  Lemma export_many n k shapes so : lk Rnum md n = KBroadcast Rnum k shapes None so -> k = Broadcast.BMax \/ k = Broadcast.BMin ->
    export_layer md ex n = Some ([mkONode (three (broadcast_name k)) [] (input_names md n) (output_name md n)], []).
  Proof.
    intros E TK. unfold export_layer. unfold lk in E. rewrite E. cbv zeta. unfold input_names. rewrite map_length.
    destruct TK as [-> | ->]; destruct (Nat.eqb (List.length (prevs n)) 1); reflexivity.
  Qed.
  Lemma broadcast_holds env n k shapes cst so : lk Rnum md n = KBroadcast Rnum k shapes cst so ->
    exportable (md_layer Rnum md n) (ex n) (map dims (prevs n)) (dims n) -> operands_known env n ->
    exists e nd, export_layer md ex n = Some e /\ fst e = [nd] /\ n_output nd = output_name md n /\
      node_holds (n_op nd) (n_attrs nd) (map env (n_inputs nd)) (TFloat (dims n) (node_value n)).
  Proof.
    intros KE (_ & HX) K. pose proof (names_known env n K) as NK. destruct K as (E0 & KP & KI).
    assert (SI : forall e nm t, export_layer md ex n = Some e -> In (nm, t) (snd e) -> env nm = Some t).
    { intros e nm t E H. apply KI. unfold inits_of. rewrite E. apply in_or_app. left. exact H. }
    assert (NV : node_value n = BroadcastProofs.broadcast_result Rnum k (List.combine shapes (map val (prevs n))) cst so idR).
    { apply value_of; [intros ?; rewrite KE; discriminate|]. unfold meaning_with. unfold lk in KE. rewrite KE. reflexivity. }
    unfold lk in KE. rewrite KE in HX. destruct HX as (P1 & P2 & P3 & HS & HO & HK).
    assert (CASES : (two_operands k /\ cst = None /\ (List.length (map dims (prevs n)) = 1 \/ List.length (map dims (prevs n)) = 2)%nat /\ broadcast_shape (map dims (prevs n)) (dims n)) \/
        (two_operands k /\ exists c, cst = Some c /\ List.length (map dims (prevs n)) = 1%nat /\ shaped4 (squeezed (fst c)) (fst c) /\ broadcast_shape (map dims (prevs n) ++ [squeezed (fst c)]) (dims n)) \/
        ((k = Broadcast.BMax \/ k = Broadcast.BMin) /\ cst = None /\ map dims (prevs n) <> [] /\ broadcast_shape (map dims (prevs n)) (dims n))).
    { unfold two_operands. destruct k; try (exfalso; destruct cst; exact HK); destruct cst as [c|]; try (exfalso; exact HK).
      2, 4, 6: left; split; [auto|]; split; [reflexivity|]; exact HK.
      1, 2, 3: right; left; split; [auto|]; exists c; split; [reflexivity|]; exact HK.
      1, 2: right; right; split; [auto|]; split; [reflexivity|]; exact HK. }
    clear HK. rewrite NV. unfold BroadcastProofs.broadcast_result. rewrite map_id.
    destruct CASES as [(TK & -> & L & BS)|[(TK & [sc wc] & -> & L1 & SC & BS)|(TK & -> & NE & BS)]].
    - (* two operands, or one *)
      pose proof (export_two n k shapes None so KE TK) as EE. rewrite map_length in L. cbv zeta in EE. destruct L as [L|L]; rewrite L in EE; cbn [Nat.eqb] in EE.
      + destruct (prevs n) as [|p [|p' ps]] eqn:EP; try discriminate. clear L. cbn [map] in HS, BS, NK. inversion HS as [|? s1 ? sr S1 HS' E1 E2]; subst. inversion HS'; subst.
        eexists _, _. split; [exact EE|]. split; [reflexivity|]. split; [reflexivity|]. cbn [n_op n_attrs n_inputs]. rewrite map_app, NK. cbn [map Datatypes.app].
        assert (SC : env (named md n "_constant") = Some (TFloat [] [neutral_of k])) by (eapply SI; [exact EE|left; reflexivity]). rewrite SC.
        eapply eq_ind; [apply (hold_two k (dims n) so (dims p) (val p) s1 [] [neutral_of k] (Broadcast.mkShape 1 1 1)); try assumption|].
        * split; [cbn; lia|reflexivity].
        * destruct BS as (B1 & (d1 & [<-|[]] & B0) & B2). split; [|split].
          -- intros ds [<-|[<-|[]]]; [apply B1; left; reflexivity|cbn; lia].
          -- exists (dims p). split; [left; reflexivity|exact B0].
          -- intros j Hj. destruct (B2 j Hj) as (B3 & ds & [<-|[]] & B4). split.
             ++ intros ds [<-|[<-|[]]]; [apply B3; left; reflexivity|]. left. unfold aligned_dim. cbn [List.length]. rewrite Nat.sub_0_r. destruct (Nat.ltb_spec j (List.length (dims n))); [reflexivity|lia].
             ++ exists (dims p). split; [left; reflexivity|exact B4].
        * apply f_equal. apply tab3_ext; [assumption|assumption|assumption|]. intros f i j _ _ _. cbn [List.combine map].
          unfold Broadcast.bat at 2. cbn [fst snd Broadcast.sC Broadcast.sH Broadcast.sW]. change (Broadcast.pick 1 f) with 0. change (Broadcast.pick 1 i) with 0. change (Broadcast.pick 1 j) with 0.
          change (at3 (n0 Rnum) 1 1 [neutral_of k] 0 0 0) with (neutral_of k).
          destruct TK as [->|[->| ->]]; cbn [BroadcastProofs.combine fold_left option_map Broadcast.bop neutral_of nsub nmul ndiv Rnum].
          -- exact (Rminus_0_r _).
          -- exact (Rmult_1_r _).
          -- unfold Rdiv. rewrite Rinv_1. exact (Rmult_1_r _).
      + destruct (prevs n) as [|p [|p' [|]]] eqn:EP; try discriminate. clear L. cbn [map] in HS, BS, NK. inversion HS as [|? s1 ? sr S1 HS' E1 E2]; subst. inversion HS' as [|? s2 ? sr2 S2 HS2 E1 E2]; subst. inversion HS2; subst.
        eexists _, _. split; [exact EE|]. split; [reflexivity|]. split; [reflexivity|]. cbn [n_op n_attrs n_inputs]. rewrite NK.
        eapply eq_ind; [apply (hold_two k (dims n) so (dims p) (val p) s1 (dims p') (val p') s2); assumption|].
        apply f_equal. apply tab3_ext; [assumption|assumption|assumption|]. intros f i j _ _ _. destruct TK as [->|[->| ->]]; reflexivity.
    - (* a constant *)
      pose proof (export_two n k shapes (Some (sc, wc)) so KE TK) as EE. cbv zeta in EE. cbn [fst snd] in *. rewrite map_length in L1.
      destruct (prevs n) as [|p [|p' ps]] eqn:EP; try discriminate. clear L1. cbn [map Datatypes.app] in HS, BS, NK. inversion HS as [|? s1 ? sr S1 HS' E1 E2]; subst. inversion HS'; subst.
      eexists _, _. split; [exact EE|]. split; [reflexivity|]. split; [reflexivity|]. cbn [n_op n_attrs n_inputs]. rewrite map_app, NK. cbn [map Datatypes.app].
      assert (SS : env (named md n "_constant") = Some (TFloat (squeezed sc) wc)) by (eapply SI; [exact EE|left; reflexivity]). rewrite SS.
      eapply eq_ind; [apply (hold_two k (dims n) so (dims p) (val p) s1 (squeezed sc) wc sc); assumption|].
      apply f_equal. apply tab3_ext; [assumption|assumption|assumption|]. intros f i j _ _ _. destruct TK as [->|[->| ->]]; reflexivity.
    - (* Max, Min *)
      pose proof (export_many n k shapes so KE TK) as EE. eexists _, _. split; [exact EE|]. split; [reflexivity|]. split; [reflexivity|]. cbn [n_op n_attrs n_inputs]. rewrite NK.
      pose proof (hold_many k (dims n) so (map (fun p => (dims p, val p)) (prevs n)) shapes TK) as G. rewrite !map_map in G. cbn [fst snd] in G. apply G; try assumption.
      + destruct (prevs n); [exfalso; apply NE; reflexivity|discriminate].
      + clear -HS. revert shapes HS. induction (prevs n) as [|p ps IH]; intros shapes HS; inversion HS; subst; [constructor|]. cbn [map]. constructor; [assumption|apply IH; assumption].
  Qed.

  Lemma layer_holds env n : exportable (md_layer Rnum md n) (ex n) (map dims (prevs n)) (dims n) -> operands_known env n ->
    exists e nd, export_layer md ex n = Some e /\ fst e = [nd] /\ n_output nd = output_name md n /\
      node_holds (n_op nd) (n_attrs nd) (map env (n_inputs nd)) (TFloat (dims n) (node_value n)).
  Proof.
    intros HX0 K0. pose proof HX0 as HX. pose proof K0 as K. destruct HX as (AC & HX). pose proof (names_known env n K) as NK. destruct K as (E0 & KP & KI).
    assert (SI : forall e nm t, export_layer md ex n = Some e -> In (nm, t) (snd e) -> env nm = Some t).
    { intros e nm t E H. apply KI. unfold inits_of. rewrite E. apply in_or_app. left. exact H. }
    clear KI. unfold export_layer in *.
    destruct (lkind Rnum (md_layer Rnum md n)) eqn:KE.
    (* inputs, constants *)
    1, 2, 3: destruct HX.
    - (* activation layers *)
      one HX EP. destruct HX as (OD & HA).
      assert (NV : node_value n = map (compute Rnum (lact Rnum (md_layer Rnum md n))) (val n1)).
      { unfold node_value, fused. rewrite KE. unfold meaning, meaning_with. rewrite KE. unfold operands. rewrite EP. reflexivity. }
      rewrite NV, OD. clear NV.
      destruct (lact Rnum (md_layer Rnum md n)) eqn:LA; try (exfalso; exact HA); start; rewrite NK; cbn [map]; (apply activation_holds; [exact AC| |reflexivity]); try reflexivity.
      split; [reflexivity|]. rewrite HA. reflexivity.
    - (* Dense *)
      one HX EP. destruct HX as (H1 & H2 & lead & HL & ED & OD). start. rewrite map_app, NK. cbn [map Datatypes.app].
      assert (S1 : env (named md n "_weight") = Some (TFloat [prev; n0] w)) by found SI.
      assert (S2 : env (named md n "_bias") = Some (TFloat [n0] b)) by found SI. rewrite S1, S2, ED, OD.
      eapply eq_ind; [apply hold_dense; eassumption|]. symmetry. val_is KE EP. reflexivity.
    - (* MatMul *) destruct HX.
    - (* Gemm *)
      destruct alpha as [alpha|]; [|exfalso; exact HX]. destruct beta as [beta|]; [|exfalso; exact HX].
      one HX EP. destruct HX as (H1 & H2 & H3 & ED & OD). start. rewrite map_app, NK. cbn [map Datatypes.app].
      assert (S1 : env (named md n "_weight") = Some (TFloat (if tB then [n0; k] else [k; n0]) w)) by found SI.
      assert (S2 : env (named md n "_bias") = Some (TFloat [n0] b)) by found SI. rewrite S1, S2, ED, OD.
      eapply eq_ind; [apply hold_gemm; eassumption|]. symmetry. val_is KE EP. reflexivity.
    - (* BatchNormalization *)
      one HX EP. destruct HX as (H1 & H2 & H3 & ED & OD). start. rewrite map_app, NK. cbn [map Datatypes.app].
      assert (S1 : env (named md n "_scale") = Some (TFloat [C] scale)) by found SI.
      assert (S2 : env (named md n "_biases") = Some (TFloat [C] bias)) by found SI.
      assert (S3 : env (named md n "_mean") = Some (TFloat [C] mean)) by found SI.
      assert (S4 : env (named md n "_var") = Some (TFloat [C] var)) by found SI. rewrite S1, S2, S3, S4, OD, ED.
      eapply eq_ind; [apply hold_batch_norm; eassumption|]. symmetry. val_is KE EP. apply map_id.
    - (* Transpose *)
      one HX EP. destruct HX as (H1 & H2 & H3 & HP & E1 & ED & OD). start. rewrite NK. cbn [map]. rewrite E1, OD, ED.
      eapply eq_ind; [apply hold_transpose; eassumption|]. symmetry. val_is KE EP. apply map_id.
    - (* Concat *)
      destruct HX as (H1 & H2 & H3 & H4 & NE & ED & OD & HF & HT). start. rewrite NK, OD.
      assert (EI : map (fun p => Some (TFloat (dims p) (val p))) (prevs n) =
        map (fun o => Some (TFloat (fst o) (snd o))) (map with_dims4 (shaped_inputs Rnum shapes (map val (prevs n)))) /\
        Forall (fits axis OC OH OW) (shaped_inputs Rnum shapes (map val (prevs n))) /\
        fold_right (fun s a => let '(c, h, w) := s in dim c h w axis + a) 0 shapes = total axis (shaped_inputs Rnum shapes (map val (prevs n)))).
      { clear -ED HF KP. revert shapes ED HF. induction (prevs n) as [|p ps IH]; intros shapes ED HF; destruct shapes as [|[[c h] w] shapes]; try discriminate; [split; [reflexivity|split; [constructor|reflexivity]]|].
        cbn [map] in ED. injection ED as E1 ED. inversion HF as [|? ? F1 F2]; subst. destruct (IH (fun p Hp => KP p (or_intror Hp)) shapes ED F2) as (I1 & I2 & I3).
        destruct (KP p (or_introl eq_refl)) as (_ & LP). rewrite E1, prod4 in LP. split; [|split].
        - cbn [map]. rewrite I1, E1. reflexivity.
        - cbn [map]. constructor; [|exact I2]. cbn. destruct F1 as (? & ? & ? & ? & ? & ?). auto 10.
        - cbn [fold_right]. rewrite I3. reflexivity. }
      destruct EI as (EI & FI & TI). rewrite EI.
      assert (LE : List.length (map val (prevs n)) = List.length shapes) by (apply (f_equal (@List.length _)) in ED; rewrite !map_length in *; exact ED).
      pose proof (hold_concat axis OC OH OW shapes (map val (prevs n)) H1 H2 H3 H4 NE LE FI (eq_trans HT TI)) as G.
      eapply eq_ind; [exact G|]. symmetry. apply f_equal. apply value_of; [intros ?; unfold lk; rewrite KE; discriminate|]. unfold meaning_with. rewrite KE. apply map_id.
    - (* Gather *) destruct HX.
    - (* GatherElements *) destruct HX.
    - (* Tile *) destruct HX.
    - (* Flatten *)
      one HX EP. destruct HX as (-> & HL & OD). start. rewrite NK. cbn [map]. rewrite OD.
      eapply eq_ind; [apply hold_flatten|].
      + apply (KP _ (or_introl eq_refl)).
      + symmetry. val_is KE EP. reflexivity.
    - (* Conv *)
      one HX EP. destruct HX as (H1 & H2 & H3 & H4 & H5 & H6 & HP & E1 & E2 & ED & OD). start. rewrite map_app, NK. cbn [map Datatypes.app].
      assert (S1 : env (named md n "_weight") = Some (TFloat [nf c; ic c; kh c; kw c] w)) by found SI.
      assert (S2 : env (named md n "_bias") = Some (TFloat [nf c] b)) by found SI. rewrite S1, S2, ED, OD, HP.
      pose proof (hold_conv c w b (val n0)) as G. rewrite HP in G, E1.
      eapply eq_ind; [apply G; eassumption|]. symmetry. val_is KE EP. reflexivity.
    - (* MaxPool *)
      one HX EP. destruct HX as (HA & HP & ED & OD). start. rewrite NK. cbn [map]. rewrite ED, OD.
      pose proof (hold_max_pool ninf P (val n0) HA) as G. unfold pool_attrs in G. rewrite HP in G |- *.
      eapply eq_ind; [exact G|]. symmetry. val_is KE EP. rewrite HP. reflexivity.
    - (* AveragePool *)
      one HX EP. destruct HX as (HA & HP & ED & OD). start. rewrite NK. cbn [map]. rewrite ED, OD.
      pose proof (hold_avg_pool P (val n0) HA) as G. unfold pool_attrs in G. rewrite HP in G |- *.
      eapply eq_ind; [exact G|]. symmetry. val_is KE EP. rewrite HP. reflexivity.
    - (* Pad *)
      one HX EP. destruct HX as (HP & HC & EB & EA & EX & ED & OD). rewrite EX in *. start. rewrite map_app, NK. cbn [map Datatypes.app].
      assert (S1 : env (named md n "_pads") = Some (TInt [8] [x_pad_before0 (ex n); pd_front P; pd_top P; pd_left P; x_pad_after0 (ex n); pd_back P; pd_bottom P; pd_right P])) by found SI.
      assert (S2 : env (match x_constant (ex n) with Some _ => named md n "_constant" | None => ""%string end) = option_map (fun v => TFloat [] [v]) (x_constant (ex n))).
      { destruct (x_constant (ex n)); [found SI|exact E0]. }
      rewrite S1, S2, E0, ED, OD, EB, EA.
      eapply eq_ind; [apply (hold_pad mode C H W P (val n0) (x_constant (ex n))); assumption|]. symmetry. val_is KE EP. apply map_id.
    - (* element-wise *)
      match type of KE with _ = KBroadcast _ ?k ?s ?c ?o => pose proof (broadcast_holds env n k s c o KE HX0 K0) as G end.
      unfold export_layer in G. rewrite KE in G. exact G.
    - (* Reduce *)
      one HX EP. destruct HX as (H1 & H2 & H3 & HA & ED & OD). start. rewrite map_app, NK. cbn [map Datatypes.app].
      assert (S1 : env (named md n "_axes") = Some (TInt [zlen axes] axes)) by found SI. rewrite S1, ED, OD.
      eapply eq_ind; [apply hold_reduce; try assumption|].
      + match goal with |- zlen (val ?p) = _ => destruct (KP p (or_introl eq_refl)) as (_ & LP); rewrite ED, prod4 in LP; exact LP end.
      + symmetry. val_is KE EP. apply map_id.
    - (* Softmax *)
      one HX EP. destruct HX as (H1 & H2 & H3 & HL & HS & HO & OD). start. rewrite NK. cbn [map]. rewrite OD.
      eapply eq_ind; [apply (hold_softmax _ C H W axis); try assumption|].
      + match goal with |- zlen (val ?p) = _ => destruct (KP p (or_introl eq_refl)) as (_ & LP); rewrite LP; destruct HS as (_ & HS);
          rewrite <- (prod_ones (4 - List.length (dims p))), HS; apply prod4 end.
      + symmetry. val_is KE EP. apply map_id.
    - destruct HX.
    - destruct HX.
    - destruct HX.
  Qed.

  (** The fused activation. *)
  Lemma fused_holds env n : exportable (md_layer Rnum md n) (ex n) (map dims (prevs n)) (dims n) ->
    fused md n = true -> env (named md n "_pre_activation") = Some (TFloat (dims n) (before_activation n)) ->
    (forall nm t, In (nm, t) (inits_of md ex n) -> env nm = Some t) -> (exists e, export_layer md ex n = Some e) ->
    exists nd, fst (export_fused md n) = [nd] /\ n_output nd = base md n /\
      node_holds (n_op nd) (n_attrs nd) (map env (n_inputs nd)) (TFloat (dims n) (map (compute Rnum (lact Rnum (md_layer Rnum md n))) (before_activation n))).
  Proof.
    intros (AC & _) F EP KI (e & EE).
    assert (SI : forall nm t, In (nm, t) (snd (export_fused md n)) -> env nm = Some t).
    { intros nm t H. apply KI. unfold inits_of. rewrite EE. apply in_or_app. right. exact H. }
    clear KI. unfold export_fused in *. rewrite F in *.
    destruct (lact Rnum (md_layer Rnum md n)) eqn:LA; cbn [fst snd] in *.
    6: exfalso; unfold fused in F; rewrite LA in F; destruct (lkind Rnum (md_layer Rnum md n)); discriminate.
    all: eexists; split; [reflexivity|]; split; [reflexivity|]; cbn [n_op n_attrs n_inputs map]; rewrite EP; apply activation_holds; try exact AC; try reflexivity.
    - split; reflexivity.
    - split; [reflexivity|]. rewrite (SI _ _ (or_introl eq_refl)), (SI _ _ (or_intror (or_introl eq_refl))). reflexivity.
  Qed.
End Run.
