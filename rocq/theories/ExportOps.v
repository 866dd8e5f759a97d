(** * The ONNX node written for a layer computes the layer's function, operator
    by operator (used by C68). *)
From Coq Require Import String.
From Coq Require Import ZArith List Lia Bool Reals Lra.
Import ListNotations.
Open Scope Z_scope.
From Verif Require Import CMem Tensor Num RealInst Activation PropertiesActivation Conv Movement MovementProofs Linear Reduce Graph LayerKinds
  OnnxSpec OnnxOpsProofs OnnxReduceProofs OnnxWindowSpec OnnxLinearSpec OnnxMiscSpec PropertiesOnnxOps PropertiesOnnxActivation PropertiesOnnxWindow PropertiesOnnxLinear OnnxMisc PropertiesOnnxBypass ExportSpec Export.
From Verif Require Broadcast.
Open Scope Z_scope.

(** ** Activations. *)
Lemma compute_intended (a : activation Rnum) (v : R) : accepted Rnum a -> compute Rnum a v = intended a v.
Proof.
  intros A. pose proof (C32_activation_real a v A) as G.
  rewrite (C32_activation Rnum a v (fl_ring _ Rnum_field) Rnum_order A) in G. congruence.
Qed.
Lemma compute_unary (a : activation Rnum) op : (exists a', instantiate_activation Rnum (1 / 100)%R (node_of op) = Some (WithCode a') /\ a' = a) ->
  parameters_ok op -> forall v, compute Rnum a v = onnx_unary op v.
Proof.
  intros (a' & E & ->) HP v. destruct (imported_value op HP) as (a0 & E0 & A & V). rewrite E in E0. injection E0 as <-.
  rewrite <- V. apply compute_intended. exact A.
Qed.
Lemma accepted_leaky (a : R) : accepted Rnum (LeakyReLu (a : T Rnum)) -> (0 <= a)%R.
Proof. cbn. unfold Rltb. destruct (Rlt_dec a 0); [discriminate|lra]. Qed.
Lemma accepted_clip (mx mn : R) : accepted Rnum (Clip (N := Rnum) mx mn) -> (mn <= mx)%R.
Proof. cbn. unfold Rltb. destruct (Rlt_dec mx mn); [discriminate|lra]. Qed.
Lemma unary_leaky (a v : R) : compute Rnum (LeakyReLu (a : T Rnum)) v = onnx_unary (OLeakyRelu (Some a)) v.
Proof. cbn [compute onnx_unary nlt nmul n0 Rnum]. unfold Rltb. destruct (Rlt_dec v 0); reflexivity. Qed.
Lemma unary_clip (mx mn v : R) : accepted Rnum (Clip (N := Rnum) mx mn) -> compute Rnum (Clip (N := Rnum) mx mn) v = onnx_unary (OClip (Some mn) (Some mx)) v.
Proof. intros A. rewrite compute_intended by exact A. reflexivity. Qed.
Lemma unary_simple (v : R) : compute Rnum ReLu v = onnx_unary ORelu v /\ compute Rnum TanH v = onnx_unary OTanh v /\
  compute Rnum Sigmoid v = onnx_unary OSigmoid v /\ compute Rnum Exponential v = onnx_unary OExp v /\ compute Rnum Logarithm v = onnx_unary OLog v.
Proof.
  repeat split; (apply compute_unary; [eexists; split; reflexivity|exact I]).
Qed.
Lemma unary_silu (v : R) : compute Rnum Silu v = (v / (1 + exp (- v)))%R.
Proof. rewrite compute_intended by exact I. change (v * (1 / (1 + exp (- v))) = v / (1 + exp (- v)))%R. unfold Rdiv. ring. Qed.

(** ** Dense. *)
Lemma inside_ones lead q : Forall (eq 1) lead -> inside lead q -> lead = repeat 1 (List.length lead) /\ q = repeat 0 (List.length lead).
Proof.
  intros HF HI. induction HI as [|n i ds idx Hi HI IH]; [split; reflexivity|]. inversion HF as [|? ? Hn HF']; subst.
  destruct (IH HF') as (E1 & E2). cbn [List.length repeat]. split; f_equal; [exact E1|lia|exact E2].
Qed.
Lemma ones lead : Forall (eq 1) lead -> lead = repeat 1 (List.length lead).
Proof. induction 1 as [|n l <- _ IH]; [reflexivity|]. cbn [List.length repeat]. f_equal. exact IH. Qed.
Lemma hold_dense a lead (prev m : Z) (w b x : list R) : 0 <= prev -> 0 <= m -> Forall (eq 1) lead ->
  node_holds "Dense" a [Some (TFloat (lead ++ [prev]) x); Some (TFloat [prev; m] w); Some (TFloat [m] b)]
    (TFloat (lead ++ [m]) (tab m (fun i => (nsum Rnum prev (fun j => nthZ 0 x j * at2 0 m w j i) + nthZ 0 b i)%R))).
Proof.
  intros Hp Hm HL. apply h_dense. split.
  - rewrite (ones lead HL), prod_ones. cbn [prod]. rewrite zlen_tab by exact Hm. ring.
  - intros q j Hq Hj. destruct (inside_ones lead q HL Hq) as (E1 & ->). rewrite E1. rewrite repeat_length, el_lift.
    unfold el at 1. cbn [offset prod]. replace (j * 1 + 0) with j by ring. rewrite nthZ_tab by exact Hj. f_equal.
    transitivity (fold_left (nadd Rnum) (tab prev (fun p => (nthZ 0 x p * at2 0 m w p j)%R)) (n0 Rnum)); [symmetry; apply fold_tab; exact Hp|].
    cbn [nadd n0 Rnum]. f_equal. apply tab_ext. intros p Hpp. rewrite el_lift, el2. unfold el. cbn [offset prod]. replace (p * 1 + 0) with p by ring. reflexivity.
Qed.

(** ** Gemm. *)
Lemma hold_gemm tA tB (alpha beta : R) M Nn K (w c x : list R) : 0 <= M -> 0 <= Nn -> 0 <= K ->
  node_holds "Gemm" [("alpha"%string, AFloat alpha); ("beta"%string, AFloat beta); ("transA"%string, AInt (Z.b2z tA)); ("transB"%string, AInt (Z.b2z tB))]
    [Some (TFloat (if tA then [K; M] else [M; K]) x); Some (TFloat (if tB then [Nn; K] else [K; Nn]) w); Some (TFloat [Nn] c)]
    (TFloat [M; Nn] (tab2 M Nn (fun i j =>
          let A i p := if tA then at2 0%R M x p i else at2 0%R K x i p in
          let B p j := if tB then at2 0%R K w j p else at2 0%R Nn w p j in
          (alpha * (nsum Rnum K (fun p => A i p * B p j)) + beta * nthZ 0 c j)%R))).
Proof.
  intros HM HN HK.
  pose proof (h_gemm [("alpha"%string, AFloat alpha); ("beta"%string, AFloat beta); ("transA"%string, AInt (Z.b2z tA)); ("transB"%string, AInt (Z.b2z tB))]
    (Z.b2z tA) (Z.b2z tB) alpha beta M Nn K [Nn] x w c) as G.
  assert (EA : negb (Z.b2z tA =? 0) = tA) by (destruct tA; reflexivity). assert (EB : negb (Z.b2z tB =? 0) = tB) by (destruct tB; reflexivity).
  rewrite EA, EB in G. apply G; try reflexivity.
  - split; [|split].
    + intros ds [<-|[<-|[]]]; cbn; lia.
    + exists [M; Nn]. split; [right; left; reflexivity|reflexivity].
    + intros q Hq. cbn in Hq. destruct q as [|[|q]]; [| |lia]; cbn; (split; [intros ds [<-|[<-|[]]]; cbn; auto|]).
      * exists [M; Nn]. split; [right; left; reflexivity|reflexivity].
      * exists [Nn]. split; [left; reflexivity|reflexivity].
  - split; [unfold tab2; apply zlen_tab; nia|]. intros i j Hi Hj. cbv zeta. rewrite el2, at2_tab2 by assumption.
    cbn [nadd nmul n0 Rnum]. f_equal; f_equal.
    + transitivity (fold_left (nadd Rnum) (tab K (fun p => ((if tA then at2 0 M x p i else at2 0 K x i p) * (if tB then at2 0 K w j p else at2 0 Nn w p j))%R)) (n0 Rnum)); [symmetry; apply fold_tab; exact HK|].
      cbn [nadd n0 Rnum]. f_equal. apply tab_ext. intros p Hp. rewrite !el2. reflexivity.
    + unfold el, aligned. cbn. destruct (Z.eqb_spec Nn 1); cbn; [replace j with 0 by lia; reflexivity|]. f_equal. ring.
Qed.

(** ** BatchNormalization. *)
Lemma hold_batch_norm C H W (scale mean var bias x : list R) (eps : R) : 0 <= C -> 0 <= H -> 0 <= W ->
  node_holds "BatchNormalization" [("epsilon"%string, AFloat eps)]
    [Some (TFloat [1; C; H; W] x); Some (TFloat [C] scale); Some (TFloat [C] bias); Some (TFloat [C] mean); Some (TFloat [C] var)]
    (TFloat [1; C; H; W] (tab2 C (H * W) (fun f k =>
          nadd Rnum (ndiv Rnum (nmul Rnum (nthZ (n0 Rnum) scale f) (nsub Rnum (at2 (n0 Rnum) (H * W) x f k) (nthZ (n0 Rnum) mean f)))
                         (nsqrt Rnum (nadd Rnum (nthZ (n0 Rnum) var f) eps))) (nthZ (n0 Rnum) bias f)))).
Proof.
  intros HC HH HW. eapply h_batch_norm; [reflexivity|reflexivity|reflexivity|].
  set (y := tab2 _ _ _). assert (ZY : zlen y = C * (H * W)) by (unfold y, tab2; apply zlen_tab; nia).
  split; [rewrite prod4; etransitivity; [exact ZY|ring]|]. intros idx HI. destruct (inside4 C H W idx HI) as (c & h & w & -> & Hc & Hh & Hw).
  cbv zeta. rewrite !el4. change (coord 1 [0; c; h; w]) with c.
  assert (A3 : forall z : list R, at3 (n0 Rnum) H W z c h w = at2 (n0 Rnum) (H * W) z c (w + W * h)) by (intros z; unfold at3, at2, idx3; f_equal; ring).
  rewrite !A3. unfold y. rewrite at2_tab2 by nia. reflexivity.
Qed.

(** ** Transpose. *)
Lemma hold_transpose C H W p1 p2 p3 (x : list R) : 0 <= C -> 0 <= H -> 0 <= W -> is_perm p1 p2 p3 ->
  node_holds "Transpose" [("perm"%string, AInts [0; p1; p2; p3])] [Some (TFloat [1; C; H; W] x)]
    (TFloat [1; dim C H W p1; dim C H W p2; dim C H W p3] (np_transpose 0%R C H W p1 p2 p3 x)).
Proof.
  intros HC HH HW HPm.
  assert (CS : (p1 = 1 /\ p2 = 2 /\ p3 = 3) \/ (p1 = 1 /\ p2 = 3 /\ p3 = 2) \/ (p1 = 2 /\ p2 = 1 /\ p3 = 3) \/
               (p1 = 2 /\ p2 = 3 /\ p3 = 1) \/ (p1 = 3 /\ p2 = 1 /\ p3 = 2) \/ (p1 = 3 /\ p2 = 2 /\ p3 = 1)) by (unfold is_perm in HPm; lia).
  pose proof (h_transpose [("perm"%string, AInts [0; p1; p2; p3])] [1; C; H; W] (map Z.to_nat [0; p1; p2; p3]) x (np_transpose 0%R C H W p1 p2 p3 x)) as G.
  assert (EP : permuted (map Z.to_nat [0; p1; p2; p3]) [1; C; H; W] = [1; dim C H W p1; dim C H W p2; dim C H W p3]).
  { destruct CS as [(-> & -> & ->)|[(-> & -> & ->)|[(-> & -> & ->)|[(-> & -> & ->)|[(-> & -> & ->)|(-> & -> & ->)]]]]]; reflexivity. }
  rewrite EP in G. apply G.
  - unfold ints_attr. cbn. destruct CS as [(-> & -> & ->)|[(-> & -> & ->)|[(-> & -> & ->)|[(-> & -> & ->)|[(-> & -> & ->)|(-> & -> & ->)]]]]]; reflexivity.
  - destruct CS as [(-> & -> & ->)|[(-> & -> & ->)|[(-> & -> & ->)|[(-> & -> & ->)|[(-> & -> & ->)|(-> & -> & ->)]]]]]; repeat constructor; cbn; lia.
  - reflexivity.
  - destruct CS as [(-> & -> & ->)|[(-> & -> & ->)|[(-> & -> & ->)|[(-> & -> & ->)|[(-> & -> & ->)|(-> & -> & ->)]]]]]; repeat constructor; cbn; lia.
  - split.
    + rewrite EP, prod4. unfold np_transpose. apply zlen_tab3; destruct CS as [(-> & -> & ->)|[(-> & -> & ->)|[(-> & -> & ->)|[(-> & -> & ->)|[(-> & -> & ->)|(-> & -> & ->)]]]]]; cbn; assumption.
    + intros idx HI. apply inside4 in HI. destruct HI as (f & i & j & -> & Hf & Hi & Hj). rewrite EP, el4. unfold permuted, np_transpose, dim, inv_index.
      destruct CS as [(-> & -> & ->)|[(-> & -> & ->)|[(-> & -> & ->)|[(-> & -> & ->)|[(-> & -> & ->)|(-> & -> & ->)]]]]];
        change (Z.to_nat 0) with 0%nat; change (Z.to_nat 1) with 1%nat; change (Z.to_nat 2) with 2%nat; change (Z.to_nat 3) with 3%nat;
        cbn [map coord nth Z.eqb Pos.eqb]; rewrite ?el4, ?at3_tab3 by assumption; 
        change (Z.to_nat 0) with 0%nat; change (Z.to_nat 1) with 1%nat; change (Z.to_nat 2) with 2%nat; change (Z.to_nat 3) with 3%nat; cbn [nth]; rewrite ?el4, ?at3_tab3 by assumption; reflexivity.
Qed.

(** ** Flatten. *)
Lemma hold_flatten ds (x : list R) : zlen x = prod ds ->
  node_holds "Flatten" [("axis"%string, AInt 0)] [Some (TFloat ds x)] (TFloat [1; prod ds] x).
Proof.
  intros Hx. apply (h_flatten [("axis"%string, AInt 0)] ds 0 x x); [reflexivity|lia|].
  apply (C65_flatten R 0%R ds 0 x); [lia|exact Hx].
Qed.

(** ** Conv. *)
Lemma hold_conv (c : conv_params) (w b x : list R) : 0 <= ic c -> 0 <= nf c -> 0 <= oh c -> 0 <= ow c -> 0 <= kh c -> 0 <= kw c ->
  oh c = onnx_length (ih c) (pt c, pb c) (kh c) (strides c) (dilation c) -> ow c = onnx_length (iw c) (pl c, pr c) (kw c) (strides c) (dilation c) ->
  node_holds "Conv"
    [("kernel_shape"%string, AInts [kh c; kw c]); ("pads"%string, AInts [pt c; pl c; pb c; pr c]);
     ("strides"%string, AInts [strides c; strides c]); ("dilations"%string, AInts [dilation c; dilation c])]
    [Some (TFloat [1; ic c; ih c; iw c] x); Some (TFloat [nf c; ic c; kh c; kw c] w); Some (TFloat [nf c] b)]
    (TFloat [1; nf c; oh c; ow c] (convolution Rnum c w b (fun v => v) x)).
Proof.
  intros H1 H2 H3 H4 H5 H6 E1 E2.
  eapply (h_conv _ (ic c) (ih c) (iw c) (nf c) (kh c) (kw c) (strides c) (strides c) (dilation c) (dilation c) (pt c) (pl c) (pb c) (pr c)); try reflexivity; try assumption.
  split; [unfold convolution; rewrite zlen_map; apply zlen_tab3; assumption|].
  intros m i j Hm Hi Hj. unfold convolution. rewrite map_id, at3_tab3 by assumption.
  rewrite !Z.div_1_r. rewrite sum3_eq by lia. f_equal. unfold nsum3. apply nsum_ext. intros k Hk.
  f_equal.
  - rewrite (Z.div_small m (nf c)) by exact Hm. reflexivity.
  - unfold at3, idx3. f_equal. ring.
Qed.
