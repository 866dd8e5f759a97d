(** * Rounding errors of the generated code (C78).
    The model of the generated code works over any arithmetic ([Num.num]).  Here
    it is taken over floating-point numbers: every operation of the C code gives
    the rounding of the exact result (no fused multiply-add, no excess precision,
    no overflow; zeros are not signed).  Reference: the same network over the
    real numbers, with the same weights. *)
From Coq Require Import ZArith List Lia Bool QArith Reals Lra.
Import ListNotations.
From Verif Require Import CMem Tensor Num RealInst Activation Movement Conv Pooling Pad Reduce Resize Graph Net.
From Verif Require Broadcast BroadcastProofs.
From Flocq Require Core.
From Verif Require Import PropertiesPooling LayerKinds.
Open Scope R_scope.
Open Scope list_scope.

(** ** Specification: a floating-point format.
    [rnd] is the rounding, [uu] its relative error, [eta] its absolute error when
    the result is tiny, [fexp] the exponential of the C library, of relative error
    [eps]. *)
Record format := mkFormat {
  rnd : R -> R; uu : R; eta : R; fexp : R -> R; eps : R; flog : R -> R; ftanh : R -> R;
  uu_pos : 0 <= uu; eta_pos : 0 <= eta; eps_pos : 0 <= eps;
  rnd_0 : rnd 0 = 0; rnd_1 : rnd 1 = 1; rnd_idem : forall x, rnd (rnd x) = rnd x;
  rnd_mono : forall x y, x <= y -> rnd x <= rnd y;
  rnd_opp : forall x, rnd (- x) = - rnd x;
  rnd_err : forall x, Rabs (rnd x - x) <= uu * Rabs x + eta;
  fexp_pos : forall x, 0 <= fexp x;
  fexp_err : forall x, Rabs (rnd (fexp x) - exp x) <= eps * exp x + eta }.

(** Single precision: IEEE binary32 without a greatest exponent. *)
Definition single (F : format) : Prop :=
  forall x, rnd F x = Generic_fmt.round Zaux.radix2 (FLT.FLT_exp (-149) 24) Round_NE.ZnearestE x.

(** Double precision: IEEE binary64 without a greatest exponent. *)
Definition double (F : format) : Prop :=
  forall x, rnd F x = Generic_fmt.round Zaux.radix2 (FLT.FLT_exp (-1074) 53) Round_NE.ZnearestE x.

(** The numbers of the format, and the arithmetic of the C code on them. *)
Definition float (F : format) : Type := { x : R | rnd F x = x }.
Definition val {F : format} (a : float F) : R := proj1_sig a.
Definition fl (F : format) (x : R) : float F := exist _ (rnd F x) (rnd_idem F x).
Definition fnum (F : format) : num :=
  mkNum (float F) (fl F 0) (fl F 1)
    (fun a b => fl F (val a + val b)) (fun a b => fl F (val a - val b)) (fun a b => fl F (val a * val b)) (fun a b => fl F (val a / val b))
    (fun a b => Rltb (val a) (val b))
    (fun a => fl F (fexp F (val a))) (fun a => fl F (sqrt (val a))) (fun a => fl F (flog F (val a))) (fun a => fl F (ftanh F (val a)))
    (fun z => fl F (IZR z)).

(** ** What is known of a pair of numbers (float, real).
    [Known]: both; [Within M E]: the real is at most M, their distance at most E;
    [Unknown]: nothing. *)
Inductive bnd := Known (a b : R) | Within (M E : R) | Unknown.
Definition about {F : format} (a : float F) (b : R) (c : bnd) : Prop :=
  match c with
  | Known a' b' => val a = a' /\ b = b'
  | Within M E => Rabs b <= M /\ Rabs (val a - b) <= E
  | Unknown => True
  end.
(** Tensors: the same number of elements, each pair as its bound says. *)
Inductive all_about {F : format} : list (float F) -> list R -> list bnd -> Prop :=
  | aa_nil : all_about [] [] []
  | aa_cons a b c la lb lc : about a b c -> all_about la lb lc -> all_about (a :: la) (b :: lb) (c :: lc).

(** ** Bounds of the results of the operations. *)
Section Bounds.
  Context (F : format).
  Definition magnitude (c : bnd) : R := match c with Known _ b => Rabs b | Within M _ => M | Unknown => 0 end.
  Definition error (c : bnd) : R := match c with Known a b => Rabs (a - b) | Within _ E => E | Unknown => 0 end.
  (** The rounding of a number that approximates, within E, a number of at most M. *)
  Definition rounded (M E : R) : bnd := Within M ((1 + uu F) * E + uu F * M + eta F).
  Definition lift (known : R -> R -> R -> R -> bnd) (within : R -> R -> R -> R -> bnd) (x y : bnd) : bnd :=
    match x, y with
    | Unknown, _ | _, Unknown => Unknown
    | Known a b, Known a' b' => known a b a' b'
    | _, _ => within (magnitude x) (error x) (magnitude y) (error y)
    end.
  Definition badd : bnd -> bnd -> bnd :=
    lift (fun a b a' b' => Known (rnd F (a + a')) (b + b')) (fun M E M' E' => rounded (M + M') (E + E')).
  Definition bsub : bnd -> bnd -> bnd :=
    lift (fun a b a' b' => Known (rnd F (a - a')) (b - b')) (fun M E M' E' => rounded (M + M') (E + E')).
  Definition bmul : bnd -> bnd -> bnd :=
    lift (fun a b a' b' => Known (rnd F (a * a')) (b * b')) (fun M E M' E' => rounded (M * M') (M * E' + M' * E + E * E')).
  (** Division by a known number only. *)
  Definition bdiv (x y : bnd) : bnd :=
    match x, y with
    | Known a b, Known a' b' => Known (rnd F (a / a')) (b / b')
    | Within M E, Known a' b' => rounded (M * Rabs (/ b')) (E * Rabs (/ a') + M * Rabs (/ a' - / b'))
    | _, _ => Unknown
    end.
  Definition bsqrt (x : bnd) : bnd := match x with Known a b => Known (rnd F (sqrt a)) (sqrt b) | _ => Unknown end.
  (** exp b <= exp M, |exp a - exp b| <= exp M (exp E - 1), and the library's error. *)
  Definition bexp (x : bnd) : bnd :=
    match x with
    | Known a b => Known (rnd F (fexp F a)) (exp b)
    | Within M E => Within (exp M) (exp M * (exp E - 1) + eps F * exp (M + E) + eta F)
    | Unknown => Unknown
    end.
  (** Quotient of at most M0 by a number of at least L, its floating-point value of
      at least L'. *)
  Definition bquot (L L' M0 : R) (x y : bnd) : bnd :=
    match x, y with
    | Unknown, _ | _, Unknown => Unknown
    | _, _ => rounded M0 (error x / L' + magnitude x * error y / (L * L'))
    end.
  Definition bmax : bnd -> bnd -> bnd :=
    lift (fun a b a' b' => Known (Rmax a a') (Rmax b b')) (fun M E M' E' => Within (Rmax M M') (Rmax E E')).
  Definition bmin : bnd -> bnd -> bnd :=
    lift (fun a b a' b' => Known (Rmin a a') (Rmin b b')) (fun M E M' E' => Within (Rmax M M') (Rmax E E')).
  Definition bnum : num :=
    mkNum bnd (Known 0 0) (Known 1 1) badd bsub bmul bdiv (fun _ _ => false) bexp bsqrt (fun _ => Unknown) (fun _ => Unknown)
      (fun z => Known (rnd F (IZR z)) (IZR z)).
  (** Local error of the sigmoid. *)
  Definition sigmoid_error : R :=
    let a := eps F + eta F in a + (uu F + eta F) * (1 + a) + uu F * (1 + a) + eta F.
  Definition act_bound (a : activation (fnum F)) (c : bnd) : bnd :=
    match a, c with
    | LinearAct, _ => c
    | ReLu, Unknown => Unknown
    | ReLu, Known a b => Known (Rmax 0 a) (Rmax 0 b)
    | ReLu, Within M E => Within M E
    | Sigmoid, Unknown => Unknown
    | Sigmoid, _ => Within 1 (error c + sigmoid_error)
    | Silu, _ => bquot 1 1 (magnitude c) c (badd (Known 1 1) (bexp (bsub (Known 0 0) c)))
    | TanH, Unknown => Unknown
    | TanH, _ =>
        let two := Known (rnd F 2) 2 in
        let up := bexp (bmul two c) in let down := bexp (bmul (bsub (Known 0 0) two) c) in
        Within 1 (Rmax (error (bquot 1 1 1 (bsub up (Known 1 1)) (badd up (Known 1 1))))
                       (error (bquot 1 1 1 (bsub (Known 1 1) down) (badd (Known 1 1) down))))
    | Exponential, _ => bexp c
    | _, _ => Unknown
    end.
  Definition greatest (merge : bnd -> bnd -> bnd) (l : list bnd) : bnd :=
    match l with [] => Unknown | v :: l' => fold_left merge l' v end.
  (** Softmax: the sum of the exponentials, the least it can be, and one element. *)
  Definition total (l : list bnd) : bnd := fold_left badd (map bexp l) (Known 0 0).
  Definition lower (l : list bnd) : R := fold_left Rplus (map (fun c => exp (- magnitude c)) l) 0.
  Definition share (l : list bnd) (c : bnd) : bnd :=
    if Rlt_dec (error (total l)) (lower l)
    then bquot (lower l) (lower l - error (total l)) (magnitude (bexp c) / lower l) (bexp c) (total l) else Unknown.

  (** ** The same layer over the reals, and over the bounds. *)
  Definition exact_act (a : activation (fnum F)) : activation Rnum :=
    match a with
    | Sigmoid => Sigmoid | Silu => Silu | ReLu => ReLu | LeakyReLu x => LeakyReLu (val x : T Rnum) | TanH => TanH
    | LinearAct => LinearAct | Exponential => Exponential | Logarithm => Logarithm | Clip x y => Clip (val x : T Rnum) (val y : T Rnum)
    end.
  (** [on]: what the weights become. *)
  Definition kind_on (N : num) (on : float F -> T N) (k : kind (fnum F)) : kind N :=
    match k with
    | KInput4 _ C H W => KInput4 N C H W
    | KInput _ n => KInput N n
    | KConstant _ w => KConstant N (map on w)
    | KActivation _ n => KActivation N n
    | KDense _ prev n w b => KDense N prev n (map on w) (map on b)
    | KMatMul _ C OH OW K => KMatMul N C OH OW K
    | KGemm _ tA tB alpha beta m n k w b => KGemm N tA tB (option_map on alpha) (option_map on beta) m n k (map on w) (map on b)
    | KBatchNorm _ C H W scale mean var bias e => KBatchNorm N C H W (map on scale) (map on mean) (map on var) (map on bias) (on e)
    | KTranspose _ C H W p1 p2 p3 => KTranspose N C H W p1 p2 p3
    | KConcat _ axis OC OH OW shapes => KConcat N axis OC OH OW shapes
    | KGather _ axis C H W inds => KGather N axis C H W inds
    | KGatherElements _ axis C H W OC OH OW inds => KGatherElements N axis C H W OC OH OW inds
    | KTile _ C H W rc rh rw => KTile N C H W rc rh rw
    | KFlatten _ cl C H W => KFlatten N cl C H W
    | KConv _ impl c w b => KConv N impl c (map on w) (map on b)
    | KMaxPool _ P => KMaxPool N P
    | KAvgPool _ P => KAvgPool N P
    | KPad _ mode C H W P =>
        KPad N (match mode with PadConstant _ v => PadConstant N (on v) | PadEdge _ => PadEdge N | PadReflect _ => PadReflect N | PadWrap _ => PadWrap N end) C H W P
    | KBroadcast _ k shapes cst o => KBroadcast N k shapes (option_map (fun t => (fst t, map on (snd t))) cst) o
    | KReduce _ k C H W axes noop => KReduce N k C H W axes noop
    | KSoftmax _ C H W axis => KSoftmax N C H W axis
    | KNearest _ nm p => KNearest N nm p
    | KLinear _ p => KLinear N p
    | KCubic _ a p => KCubic N (on a) p
    end.
  Definition exact_layer (l : layer (fnum F)) : layer Rnum := mkLayer Rnum (kind_on Rnum val (lkind _ l)) (exact_act (lact _ l)).
  Definition exact_model (md : model (fnum F)) : model Rnum :=
    mkModel Rnum (md_graph _ md) (fun n => exact_layer (md_layer _ md n)) (md_last _ md).
  Definition known (a : float F) : bnd := Known (val a) (val a).
  (** The bounds of a layer's output: its documented function, on bounds; greatest
      and least elements: the bounds merged. *)
  Context (q : Q -> float F).
  Definition bq (x : Q) : bnd := Known (val (q x)) (Q2R x).
  Definition layer_bound (l : layer (fnum F)) (cs : list (list bnd)) : list bnd :=
    let act := act_bound (lact _ l) in
    match lkind _ l, cs with
    | KMaxPool _ P, [x] =>
        tab3 (p_C P) (p_OH P) (p_OW P) (fun f i j => act (greatest bmax
          (window (image (Known 0 0) P x f) (p_IH P) (p_IW P) (p_size P) (p_stride P) (p_top P) (p_left P) i j)))
    | KBroadcast _ (Broadcast.BMax as k) shapes cst o, _ | KBroadcast _ (Broadcast.BMin as k) shapes cst o, _ =>
        map act (tab3 (Broadcast.sC o) (Broadcast.sH o) (Broadcast.sW o) (fun f i j =>
          greatest (match k with Broadcast.BMax => bmax | _ => bmin end) (map (fun t => Broadcast.bat bnum t f i j) (combine shapes cs))))
    | KReduce _ (RMax as k) C H W axes noop, [x] | KReduce _ (RMin as k) C H W axes noop, [x] =>
        map act (if empty_axes axes && noop then x
          else let all := empty_axes axes in
            tab3 (red_dim 1 C axes noop) (red_dim 2 H axes noop) (red_dim 3 W axes noop) (fun c h w =>
              greatest (match k with RMax => bmax | _ => bmin end)
                (red_cells bnum C H W (all || in_axes 1 axes) (all || in_axes 2 axes) (all || in_axes 3 axes) x c h w)))
    | KSoftmax _ C H W axis, [x] =>
        map act (if one_dimension C H W then map (share x) x
          else tab3 C H W (fun c h w => share (red_cells bnum C H W (axis =? 1)%Z (axis =? 2)%Z (axis =? 3)%Z x c h w) (at3 (Known 0 0) H W x c h w)))
    | k, _ => meaning_with bnum Unknown bq act (mkLayer bnum (kind_on bnum known k) LinearAct) cs
    end.
  Definition bound_model (md : model (fnum F)) : model bnum :=
    mkModel bnum (md_graph _ md) (fun n => mkLayer bnum (kind_on bnum known (lkind _ (md_layer _ md n))) LinearAct) (md_last _ md).
  (** The network of the bounds. *)
  Definition bound_net (md : model (fnum F)) (s : schedule) : network bnd :=
    let b := net_with bnum Unknown bq (fun _ _ => []) (bound_model md) s in
    mkNet (net_graph b) (size b) (patches_size b) (is_concat b) (code b) (fun n => layer_bound (md_layer _ md n)) (pre b) (post b) (output_code b).
  (** The layers for which bounds are propagated: those of which every operation of
      the C code is one of the format, and whose code is known to agree with the
      documented function in floating-point arithmetic (not C13 with alpha different
      from 1, nor C51).  C does not always compute in data_type
      (generator/activation_functions.py:98-285, templates/layers/):
      Sigmoid and TanH mix double literals and expf, whatever data_type (C83, C86);
      in a float program, exp, sqrt and the literals are double, and make double the
      expressions of Silu, Softmax, BatchNormalization and of beta in Gemm (C86).
      Exponential, Logarithm and Clip only store a double in a float, and so does
      LeakyReLu as alpha is here a number of the format (C86_covered); the linear
      Resize keeps the pixels in float variables
      (templates/template_source_file.c.tpl:56, 66-75; C83). *)
  Definition measured (l : layer (fnum F)) : Prop :=
    match lact _ l with Sigmoid | TanH => False | Silu => double F | _ => True end /\
    match lkind _ l with
    | KGemm _ _ _ alpha beta _ _ _ _ _ => alpha = None /\ (beta = None \/ double F)
    | KBatchNorm _ _ _ _ _ _ _ _ _ | KSoftmax _ _ _ _ _ => double F
    | KCubic _ _ _ => False
    | KLinear _ _ => single F
    | _ => True
    end.
End Bounds.
