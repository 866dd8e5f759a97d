(** * Convolutions: convolution/Conv2D.py and the generated implementations. *)
From Coq Require Import ZArith List Lia Bool.
Import ListNotations.
Open Scope Z_scope.
From Verif Require Import CMem Tensor Num.

(** Parameters of a Conv2D layer (convolution/Conv2D.py:38-97), one group. *)
Record conv_params := mkConv {
  ic : Z; ih : Z; iw : Z;          (* input_channels, input_height, input_width *)
  nf : Z; oh : Z; ow : Z;          (* nb_filters, output_height, output_width *)
  kh : Z; kw : Z;                  (* kernel_h, kernel_w *)
  strides : Z; dilation : Z;       (* strides, dilation_rate *)
  pt : Z; pl : Z; pb : Z; pr : Z   (* pad_top, pad_left, pad_bottom, pad_right *)
}.

Section Conv.
  Context (N : num).
  Notation V := (T N).
  Notation mem := (mem V).
  Notation z := (n0 N).

  (** Sum over three indices in row-major order. *)
  Definition nsum3 (A B C : Z) (t : Z -> Z -> Z -> V) : V :=
    nsum N (A * B * C) (fun k => t (k / (B * C)) ((k / C) mod B) (k mod C)).

  (** Is (ii, jj) inside the image? *)
  Definition inside (c : conv_params) (ii jj : Z) : bool :=
    (ii >=? 0) && (ii <? ih c) && (jj >=? 0) && (jj <? iw c).

  (** templates/layers/Conv/template_Conv_6loops.c.tpl, convolution/Conv2D6loops.py. *)
  Definition conv6_c (src out : bname) (c : conv_params) (w b : list V) (act : V -> V) : mem -> option mem :=
    via_temp
      (for_ (nf c) (fun f => for_ (oh c) (fun i => for_ (ow c) (fun j m =>
         sum <- for_ (ic c) (fun p => for_ (kh c) (fun h => for_ (kw c) (fun w_ sum =>
             let ii := i * strides c + h * dilation c - pt c in
             let jj := j * strides c + w_ * dilation c - pl c in
             if inside c ii jj then
               x <- rd m src (jj + iw c * (ii + ih c * p)) ;;
               y <- rdl w (w_ + kw c * (h + kh c * (p + ic c * f))) ;;
               Some (nadd N sum (nmul N x y))
             else Some sum))) z ;;
         bf <- rdl b f ;;
         wr m Temp (j + ow c * (i + oh c * f)) (act (nadd N sum bf))))))
      (nf c * oh c * ow c) (fun v => v) out.

  (** convolution/Conv2D.py:236-282.  [padded p a b]: input_padded[p, a, b], zero
      outside the copied region (and for group = 1). *)
  Definition py_padded (c : conv_params) (x : list V) (p a b : Z) : V :=
    if (a >=? pt c) && (a <? pt c + ih c) && (b >=? pl c) && (b <? pl c + iw c)
    then at3 z (ih c) (iw c) x p (a - pt c) (b - pl c) else z.
  (** np.sum is modelled as a left-to-right sum starting from 0. *)
  Definition conv_py (c : conv_params) (w b : list V) (act : V -> V) (x : list V) : list V :=
    map act (tab3 (nf c) (oh c) (ow c) (fun f i j =>
      nadd N (nsum3 (ic c) (kh c) (kw c) (fun p h w_ =>
                nmul N (at3 z (kh c) (kw c) w (p + ic c * f) h w_)
                       (py_padded c x p (i * strides c + h) (j * strides c + w_))))
             (nthZ z b f))).

  (** ** std_gemm: convolution/Conv2DStdGemm.py, convolution/Conv2DGemm.py.
      [pred_cst]: the array of the predecessor when it is a saved copy (cst_k);
      otherwise the code assumes that the input is in the layer's own array. *)
  Definition patches_height (c : conv_params) := ic c * kh c * kw c.
  Definition patches_width (c : conv_params) := oh c * ow c.

  (** templates/layers/Conv/template_im2col.c.tpl; [dst_index i h w_] is the
      address of the patch element (the only difference with im2row). *)
  Definition im2_c (dst_index : Z -> Z -> Z -> Z) (src out : bname) (c : conv_params) : mem -> option mem :=
    for_ (patches_height c) (fun i => for_ (oh c) (fun h => for_ (ow c) (fun w_ m =>
      let i_offset := (i / kw c) mod kh c in
      let j_offset := i mod kw c in
      let c_offset := i / kh c / kw c in
      let ii := h * strides c - pt c + i_offset in
      let jj := w_ * strides c - pl c + j_offset in
      if inside c ii jj then
        v <- rd m src ((c_offset * ih c + ii) * iw c + jj) ;; wr m out (dst_index i h w_) v
      else wr m out (dst_index i h w_) z))).
  Definition im2col_index (c : conv_params) (i h w_ : Z) : Z := i * patches_width c + (h * ow c + w_).
  (** template_im2row.c.tpl *)
  Definition im2row_index (c : conv_params) (i h w_ : Z) : Z := (w_ * oh c + h) * patches_height c + i.

  (** template_Conv_gemm_nn.c.tpl with m = nf, n = patches_width, k = patches_height,
      ldA = k, ldB = n, ldC = n (Conv2DGemm.py:44-77).  [rdB m q] is the value of
      B[q], or of *(B[q]) when the template is used with "direct". *)
  Definition gemm_nn_c (rdB : mem -> Z -> option V) (m_ n k : Z) (w b : list V) (act : V -> V) : mem -> option mem :=
    for_ m_ (fun i m =>
      m1 <- for_ k (fun p m =>
              weight <- rdl w (i * k + p) ;;
              for_ n (fun j m =>
                t <- rd m Temp (i * n + j) ;; x <- rdB m (p * n + j) ;;
                wr m Temp (i * n + j) (nadd N t (nmul N weight x))) m) m ;;
      for_ n (fun j m =>
        o <- rd m Temp (i * n + j) ;; bi <- rdl b i ;;
        wr m Temp (i * n + j) (act (nadd N o bi))) m1).
  (** template_Conv_gemm_nt.c.tpl.  Note B[j*ldB+p] with ldB = n.  The emitted
      text lacks "ctx->" in front of B; we read it as if it were there. *)
  Definition gemm_nt_c (B : bname) (m_ n k : Z) (w b : list V) (act : V -> V) : mem -> option mem :=
    for_ m_ (fun i => for_ n (fun j m =>
      o <- for_ k (fun p o => y <- rdl w (i * k + p) ;; x <- rd m B (j * n + p) ;; Some (nadd N o (nmul N y x))) z ;;
      bi <- rdl b i ;; wr m Temp (i * n + j) (act (nadd N o bi)))).
  (** template_Conv_gemm_tn.c.tpl: the bias and activation loop is inside the p loop. *)
  Definition gemm_tn_c (B : bname) (m_ n k : Z) (w b : list V) (act : V -> V) : mem -> option mem :=
    for_ m_ (fun i => for_ k (fun p m =>
      weight <- rdl w (p * k + i) ;;
      m1 <- for_ n (fun j m =>
              t <- rd m Temp (i * n + j) ;; x <- rd m B (p * n + j) ;;
              wr m Temp (i * n + j) (nadd N t (nmul N weight x))) m ;;
      for_ n (fun j m =>
        o <- rd m Temp (i * n + j) ;; bi <- rdl b i ;;
        wr m Temp (i * n + j) (act (nadd N o bi))) m1)).
  (** template_Conv_gemm_tt.c.tpl *)
  Definition gemm_tt_c (B : bname) (m_ n k : Z) (w b : list V) (act : V -> V) : mem -> option mem :=
    for_ m_ (fun i => for_ n (fun j m =>
      o <- for_ k (fun p o => y <- rdl w (p * k + i) ;; x <- rd m B (j * n + p) ;; Some (nadd N o (nmul N y x))) z ;;
      bi <- rdl b i ;; wr m Temp (i * n + j) (act (nadd N o bi)))).

  Inductive gemm_algo := NN | NT | TN | TT.
  (** Conv2DStdGemm.py:37-43 (patch building), Conv2DGemm.py:37-41 (gemm), and
      templates/layers/Conv/template_Conv_std_gemm.c.tpl. *)
  Definition std_gemm_c (algo : gemm_algo) (pred_cst : option nat) (out : bname) (c : conv_params)
      (w b : list V) (act : V -> V) (m : mem) : option mem :=
    m1 <- match pred_cst with
          | Some _ => Some m
          | None => for_ (ic c * ih c * iw c) (fun k m => v <- rd m out k ;; wr m Temp k v) m
          end ;;
    let src := match pred_cst with Some k => Cst k | None => Temp end in
    m2 <- im2_c (match algo with NN | TN => im2col_index c | NT | TT => im2row_index c end) src out c m1 ;;
    m3 <- for_ (nf c * patches_width c) (fun k m => wr m Temp k z) m2 ;;
    m4 <- (match algo with NN => fun B => gemm_nn_c (fun m => rd m B) | NT => gemm_nt_c | TN => gemm_tn_c | TT => gemm_tt_c end)
            out (nf c) (patches_width c) (patches_height c) w b act m3 ;;
    copy_from_temp (nf c * oh c * ow c) (fun v => v) out m4.

  (** ** indirect_gemm: convolution/Conv2DIndirectGemm.py:39-93.
      The pointer table: entry [None] is "&zero", entry [Some a] is
      "&input[a]".  numpy: start_idx.ravel()[:,None] + offset_idx.ravel(), so
      entry k*patches_width + q is start_idx[k] + offset_idx[q]. *)
  Definition start_idx (c : conv_params) (hp wp k : Z) : Z :=
    hp * wp * (k / (kh c * kw c)) + (((k / kw c) mod kh c) * wp + k mod kw c).
  Definition offset_idx (c : conv_params) (wp q : Z) : Z :=
    (q / ow c * strides c) * wp + (q mod ow c) * strides c.
  Definition raw_idx (c : conv_params) (hp wp : Z) : list Z :=
    tab2 (patches_height c) (patches_width c) (fun k q => start_idx c hp wp k + offset_idx c wp q).
  (** Conv2DIndirectGemm.py:53-63: cells of the padded image that are padding;
      cell [v] of channel [v/(hp*wp)], row (v/wp) mod hp, column v mod wp. *)
  Definition is_pad (c : conv_params) (v : Z) : bool :=
    let hp := ih c + pt c + pb c in let wp := iw c + pl c + pr c in
    let i := (v / wp) mod hp in let j := v mod wp in
    ((i <? pt c) || (i >=? hp - pb c)) || ((j <? pl c) || (j >=? wp - pr c)).
  (** np.unique(..., return_inverse=True): the rank of [v] among the distinct
      values (the padding, turned into NaN, sorts last). *)
  Definition distinct_below (values : list Z) (v : Z) : Z :=
    zlen (filter (fun u => u <? v) (nodup Z.eq_dec values)).
  Definition ppatches (c : conv_params) : list (option Z) :=
    if (pr c =? 0) && (pl c =? 0) && (pb c =? 0) && (pt c =? 0) then
      map Some (raw_idx c (ih c) (iw c))
    else
      let raw := raw_idx c (ih c + pt c + pb c) (iw c + pl c + pr c) in
      let used := filter (fun v => negb (is_pad c v)) raw in
      map (fun v => let r := if is_pad c v then zlen (nodup Z.eq_dec used) else distinct_below used v in
                    if r =? ic c * ih c * iw c then None else Some r) raw.

  (** templates/layers/Conv/template_Conv_indirect_gemm.c.tpl with gemm_nn and
      "direct".  [src] is the array named in the pointers. *)
  Definition rd_pointer (table : list (option Z)) (src : bname) (m : mem) (q : Z) : option V :=
    e <- rdl table q ;; match e with None => Some z | Some a => rd m src a end.
  Definition indirect_nn_c (src out : bname) (c : conv_params) (w b : list V) (act : V -> V) (m : mem) : option mem :=
    m1 <- for_ (nf c * oh c * ow c) (fun k m => wr m Temp k z) m ;;
    m2 <- gemm_nn_c (rd_pointer (ppatches c) src) (nf c) (patches_width c) (patches_height c) w b act m1 ;;
    copy_from_temp (nf c * oh c * ow c) (fun v => v) out m2.
End Conv.
Arguments nsum3 {N}.

(** ** Specification: cross-correlation with zero padding. *)
Section ConvSpec.
  Context (N : num).
  Definition zero_padded (H W : Z) (x : list (T N)) (c ii jj : Z) : T N :=
    if (0 <=? ii) && (ii <? H) && (0 <=? jj) && (jj <? W) then at3 (n0 N) H W x c ii jj else n0 N.
  (** out[f,i,j] = act(bias[f] + sum_{p,h,w} x~[p, i*s + h*d - top, j*s + w*d - left] * weight[f,p,h,w]) *)
  Definition convolution (c : conv_params) (w b : list (T N)) (act : T N -> T N) (x : list (T N)) : list (T N) :=
    map act (tab3 (nf c) (oh c) (ow c) (fun f i j =>
      nadd N (nsum3 (ic c) (kh c) (kw c) (fun p h w_ =>
                nmul N (zero_padded (ih c) (iw c) x p (i * strides c + h * dilation c - pt c)
                                                      (j * strides c + w_ * dilation c - pl c))
                       (at3 (n0 N) (kh c) (kw c) w (p + ic c * f) h w_)))
             (nthZ (n0 N) b f))).

  (** What the theorems need of the arithmetic: adding a zero product changes
      nothing (C skips the padding, the definition adds zeros). *)
  Definition zero_product_law : Prop := forall s y, nadd N s (nmul N (n0 N) y) = s.
  Definition mul_comm_law : Prop := forall x y, nmul N x y = nmul N y x.

  Record conv_dims (c : conv_params) (w b x : list (T N)) : Prop := {
    cd_ic : 0 <= ic c; cd_ih : 0 <= ih c; cd_iw : 0 <= iw c; cd_nf : 0 <= nf c;
    cd_oh : 0 <= oh c; cd_ow : 0 <= ow c; cd_kh : 0 <= kh c; cd_kw : 0 <= kw c;
    cd_x : zlen x = ic c * ih c * iw c;
    cd_w : zlen w = nf c * ic c * kh c * kw c;
    cd_b : zlen b = nf c }.
End ConvSpec.
Arguments zero_padded {N}.
