(** * The "direct_block" convolution: channels-last code, blocked over the filters
    (convolution/Conv2Ddirect_block.py). *)
From Coq Require Import ZArith List Lia Bool.
Import ListNotations.
Open Scope Z_scope.
From Verif Require Import CMem Tensor Num Movement Conv.

Section ConvHWC.
  Context (N : num).
  Notation V := (T N).
  Notation mem := (mem V).
  Notation z := (n0 N).

  (** weights[f, p, h, w] of an array of shape (K, C, KH, KW), row-major. *)
  Definition weight_at (c : conv_params) (w : list V) (f p h w_ : Z) : V :=
    at3 z (kh c) (kw c) w (p + ic c * f) h w_.

  (** ** Local arrays of the generated C code (d, acc), as functions of their indices. *)
  Definition larr := Z -> Z -> Z -> V.
  Definition upd3 (s : larr) (i j k : Z) (v : V) : larr :=
    fun i' j' k' => if (i' =? i) && (j' =? j) && (k' =? k) then v else s i' j' k'.

  (** Conv2Ddirect_block.py:60-66: KCHW -> [NB_K][1][KH][KW][C][BLOCK_K] (block_c = C). *)
  Definition block_layout (c : conv_params) (BK : Z) (w : list V) : list V :=
    tab2 (nf c / BK * kh c * kw c * ic c) BK (fun r k =>
      let p := r mod ic c in let r1 := r / ic c in
      let w_ := r1 mod kw c in let r2 := r1 / kw c in
      let h := r2 mod kh c in let bk := r2 / kh c in
      weight_at c w (bk * BK + k) p h w_).

  (** template_Conv_direct_block.c.tpl with BLOCK_C = C, NB_BLOCK_C = 1, and
      PAD = pad_left (= pad_top, asserted at Conv2Ddirect_block.py:92).
      The bias-initialised accumulator is the cell of tensor_temp itself. *)
  Definition direct_block_c (src out : bname) (c : conv_params) (BK : Z) (wl b : list V) (act : V -> V) : mem -> option mem :=
    via_temp
      (for_ (nf c / BK) (fun bk => for_ (oh c) (fun o_h => for_ (ow c) (fun o_w m =>
         let kh_s := if pl c - o_h * strides c >? 0 then pl c - o_h * strides c else 0 in
         let kh_e := if kh c <? ih c + pl c - o_h * strides c then kh c else ih c + pl c - o_h * strides c in
         let kw_s := if pl c - o_w * strides c >? 0 then pl c - o_w * strides c else 0 in
         let kw_e := if kw c <? iw c + pl c - o_w * strides c then kw c else iw c + pl c - o_w * strides c in
         let base := o_h * ow c * nf c + o_w * nf c + bk * BK in
         m1 <- for_ BK (fun k m => bv <- rdl b (bk * BK + k) ;; wr m Temp (base + k) bv) m ;;
         for_ (kh_e - kh_s) (fun h' => let h := kh_s + h' in
           let i_h := o_h * strides c - pl c + h in
           for_ (kw_e - kw_s) (fun w' => let w_ := kw_s + w' in
             let i_w := o_w * strides c - pl c + w_ in
             for_ (ic c) (fun p m =>
               iv <- rd m src ((i_h * iw c + i_w) * ic c + p) ;;
               for_ BK (fun k m =>
                 t <- rd m Temp (base + k) ;;
                 wv <- rdl wl ((((bk * kh c + h) * kw c + w_) * ic c) * BK + p * BK + k) ;;
                 wr m Temp (base + k) (nadd N t (nmul N iv wv))) m))) m1))))
      (nf c * oh c * ow c) act out.

  (** Conv2Ddirect_block.py:43-45: depth-wise, (K,1,KH,KW) -> (1,KH,KW,K). *)
  Definition dw_layout (c : conv_params) (w : list V) : list V :=
    tab2 (kh c * kw c) (nf c) (fun r k => at3 z (kh c) (kw c) w k (r / kw c) (r mod kw c)).

  (** template_Conv_DW_HWC.c.tpl (group = nb_filters = input_channels). *)
  Definition depthwise_c (src out : bname) (c : conv_params) (wl b : list V) (act : V -> V) : mem -> option mem :=
    via_temp
      (for_ (oh c) (fun o_h => for_ (ow c) (fun o_w m =>
         let h_start := o_h * strides c - pl c in
         let kh_s := if 0 >? - h_start then 0 else - h_start in
         let kh_e := if kh c <? ih c - h_start then kh c else ih c - h_start in
         let w_start := o_w * strides c - pl c in
         let kw_s := if 0 >? - w_start then 0 else - w_start in
         let kw_e := if kw c <? iw c - w_start then kw c else iw c - w_start in
         let base := o_h * ow c * nf c + o_w * nf c in
         m1 <- for_ (nf c) (fun k m => bv <- rdl b k ;; wr m Temp (base + k) bv) m ;;
         for_ (kh_e - kh_s) (fun h' => let h := kh_s + h' in
           let i_h := h_start + h in
           for_ (kw_e - kw_s) (fun w' => let w_ := kw_s + w' in
             let i_w := w_start + w_ in
             for_ (nf c) (fun k m =>
               t <- rd m Temp (base + k) ;;
               iv <- rd m src (i_h * iw c * nf c + i_w * nf c + k) ;;
               wv <- rdl wl (h * kw c * nf c + w_ * nf c + k) ;;
               wr m Temp (base + k) (nadd N t (nmul N iv wv))))) m1)))
      (nf c * oh c * ow c) act out.

  (** ** Winograd F(2x2, 3x3): Conv2Ddirect_block.py:51-57,
      template_Conv3x3_winograd.c.tpl.  [half] is the literal 0.5. *)
  Context (half : V).
  (** The 4x3 matrix G. *)
  Definition wino_G (i j : Z) : V :=
    if i =? 0 then (if j =? 0 then n1 N else z)
    else if i =? 3 then (if j =? 2 then n1 N else z)
    else if (i =? 2) && (j =? 1) then nsub N z half else half.
  (** np.einsum('ij,okjl,ml->okim', G, w, G), then (nb_k, BK, C, 4, 4) -> (nb_k, 4, 4, C, BK). *)
  Definition wino_weight (c : conv_params) (w : list V) (f p i m : Z) : V :=
    nsum N 3 (fun j => nsum N 3 (fun l =>
      nmul N (nmul N (wino_G i j) (weight_at c w f p j l)) (wino_G m l))).
  Definition wino_layout (c : conv_params) (BK : Z) (w : list V) : list V :=
    tab2 (nf c / BK * 4 * 4 * ic c) BK (fun r k =>
      let p := r mod ic c in let r1 := r / ic c in
      let m := r1 mod 4 in let r2 := r1 / 4 in
      let i := r2 mod 4 in let bk := r2 / 4 in
      wino_weight c w (bk * BK + k) p i m).

  (** One application of BT (rows 1,0,-1,0 / 0,1,1,0 / 0,-1,1,0 / 0,1,0,-1): template lines
      "temp[0][i] = d[0][i] - d[2][i]" etc., and the same horizontally. *)
  Definition wino_BT (i : Z) (d : Z -> V) : V :=
    if i =? 0 then nsub N (d 0) (d 2) else if i =? 1 then nadd N (d 1) (d 2)
    else if i =? 2 then nsub N (d 2) (d 1) else nsub N (d 1) (d 3).
  (** One application of AT (rows 1,1,1,0 / 0,1,-1,-1). *)
  Definition wino_AT (a : Z) (x : Z -> V) : V :=
    if a =? 0 then nadd N (nadd N (x 0) (x 1)) (x 2) else nsub N (nsub N (x 1) (x 2)) (x 3).

  (** The four assignments for the four columns are written out in the template;
      they are the [q] loops here. *)
  Definition winograd_c (src out : bname) (c : conv_params) (BK : Z) (wl b : list V) (act : V -> V) : mem -> option mem :=
    via_temp
      (for_ ((nf c + BK - 1) / BK) (fun kb => for_ (oh c / 2) (fun t_h => for_ (ow c / 2) (fun t_w m =>
         let o_h := 2 * t_h in let o_w := 2 * t_w in
         acc <- for_ (ic c) (fun p acc =>
                  d <- for_ 4 (fun r => for_ 4 (fun q (d : larr) =>
                         let i_h := o_h + r - pl c in let i_w := o_w + q - pl c in
                         v <- (if inside c i_h i_w then rd m src (i_h * iw c * ic c + p + i_w * ic c) else Some z) ;;
                         Some (upd3 d r q 0 v))) (fun _ _ _ => z) ;;
                  let temp := fun i j => wino_BT i (fun r => d r j 0) in
                  for_ 4 (fun i => for_ 4 (fun q => for_ BK (fun k (acc : larr) =>
                    wv <- rdl wl ((((kb * 4 + i) * 4 + q) * ic c + p) * BK + k) ;;
                    Some (upd3 acc i q k (nadd N (acc i q k) (nmul N (wino_BT q (temp i)) wv)))))) acc) (fun _ _ _ => z) ;;
         let m_temp := fun a q k => wino_AT a (fun i => acc i q k) in
         for_ 2 (fun a => for_ 2 (fun b_ => for_ BK (fun k m =>
           bv <- rdl b (kb * BK + k) ;;
           wr m Temp (((o_h + a) * ow c + (o_w + b_)) * nf c + kb * BK + k)
              (nadd N (wino_AT b_ (fun q => m_temp a q k)) bv)))) m))))
      (nf c * oh c * ow c) act out.
End ConvHWC.

(** ** Specification. [convolution_hwc]: the same convolution on channels-last tensors. *)
Section SpecHWC.
  Context (N : num).
  Definition convolution_hwc (c : conv_params) (w b : list (T N)) (act : T N -> T N) (x : list (T N)) : list (T N) :=
    to_last (n0 N) (nf c) (oh c) (ow c) (convolution N c w b act (to_first (n0 N) (ic c) (ih c) (iw c) x)).
  (** Depth-wise: filter f sees channel f only. *)
  Definition depthwise_hwc (c : conv_params) (w b : list (T N)) (act : T N -> T N) (x : list (T N)) : list (T N) :=
    let x' := to_first (n0 N) (ic c) (ih c) (iw c) x in
    to_last (n0 N) (nf c) (oh c) (ow c)
      (map act (tab3 (nf c) (oh c) (ow c) (fun f i j =>
         nadd N (nsum3 1 (kh c) (kw c) (fun _ h w_ =>
                   nmul N (zero_padded (ih c) (iw c) x' f (i * strides c + h - pt c) (j * strides c + w_ - pl c))
                          (at3 (n0 N) (kh c) (kw c) w f h w_)))
                (nthZ (n0 N) b f)))).
End SpecHWC.
