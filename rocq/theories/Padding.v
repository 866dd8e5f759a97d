(** * Padding of convolutions and poolings: ir/layer.py:116-164 compute_padding,
    and the output-size formula checked by the constructors. *)
From Coq Require Import ZArith Lia Bool.
Open Scope Z_scope.

(** "VALID"/"valid", "SAME_UPPER"/"same", "SAME_LOWER", any other string, or an
    explicit list in the order top, left, bottom, right. *)
Inductive padding := Valid | SameUpper | SameLower | OtherString | Explicit (t l b r : Z).

(** ir/layer.py:136-146. Python's // and % on ints are Z.div and Z.modulo. *)
Definition pad_along (size kernel strides dilation : Z) : Z :=
  let filter := kernel - (kernel - 1) * (dilation - 1) in
  if size mod strides =? 0 then Z.max (filter - strides) 0
  else Z.max (filter - size mod strides) 0.

(** Returns (right, left, bottom, top), as the Python function does. *)
Definition compute_padding (p : padding) (in_h in_w kernel_h kernel_w strides dilation : Z) : Z * Z * Z * Z :=
  match p with
  | Valid => (0, 0, 0, 0)
  | Explicit t l b r => (r, l, b, t)
  | SameUpper =>
    let ph := pad_along in_h kernel_h strides dilation in
    let pw := pad_along in_w kernel_w strides dilation in
    (pw - pw / 2, pw / 2, ph - ph / 2, ph / 2)
  | SameLower =>
    let ph := pad_along in_h kernel_h strides dilation in
    let pw := pad_along in_w kernel_w strides dilation in
    (pw / 2, pw - pw / 2, ph / 2, ph - ph / 2)
  | OtherString => (0, 0, 0, 0)
  end.

(** convolution/Conv2D.py:186-225: the output size the constructor requires. *)
Definition conv_output_size (size pad_before pad_after kernel strides dilation : Z) : Z :=
  (size + pad_after + pad_before - kernel - (kernel - 1) * (dilation - 1)) / strides + 1.

Lemma pad_along_spec size kernel strides : 0 < size -> 1 <= kernel -> 0 < strides ->
  0 <= pad_along size kernel strides 1 /\
  (size + pad_along size kernel strides 1 - kernel) / strides + 1 = - ((- size) / strides).
Proof.
  intros Hn Hk Hs. unfold pad_along. replace (kernel - (kernel - 1) * (1 - 1)) with kernel by ring.
  pose proof (Z.div_mod size strides ltac:(lia)) as E. pose proof (Z.mod_pos_bound size strides Hs) as B.
  set (q := size / strides) in *. set (r := size mod strides) in *.
  destruct (Z.eqb_spec r 0) as [Er|Er]; (split; [lia|]).
  - assert (C : - ((- size) / strides) = q).
    { replace (- size) with ((- q) * strides) by nia. rewrite Z.div_mul by lia. lia. }
    rewrite C. destruct (Z.max_spec (kernel - strides) 0) as [[H ->]|[H ->]].
    + assert ((size + 0 - kernel) / strides = q - 1); [|lia].
      symmetry. apply (Z.div_unique_pos _ _ _ (strides - kernel)); nia.
    + assert ((size + (kernel - strides) - kernel) / strides = q - 1); [|lia].
      symmetry. apply (Z.div_unique_pos _ _ _ 0); nia.
  - assert (C : - ((- size) / strides) = q + 1).
    { assert ((- size) / strides = - q - 1); [|lia].
      symmetry. apply (Z.div_unique_pos _ _ _ (strides - r)); nia. }
    rewrite C. destruct (Z.max_spec (kernel - r) 0) as [[H ->]|[H ->]].
    + assert ((size + 0 - kernel) / strides = q); [|lia].
      symmetry. apply (Z.div_unique_pos _ _ _ (r - kernel)); nia.
    + assert ((size + (kernel - r) - kernel) / strides = q); [|lia].
      symmetry. apply (Z.div_unique_pos _ _ _ 0); nia.
Qed.
