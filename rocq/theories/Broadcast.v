(** * Add, Subtract, Multiply, Divide, Maximum, Minimum and Average, and the
    folding of initialisers by the ONNX importer. *)
From Coq Require Import ZArith List Lia Bool.
Import ListNotations.
Open Scope Z_scope.
From Verif Require Import CMem Tensor Num Activation.

Section Broadcast.
  Context (N : num).
  Notation V := (T N).
  Notation mem := (mem V).

  (** A shape (channels, height, width); the batch dimension is 1. *)
  Record shape := mkShape { sC : Z; sH : Z; sW : Z }.
  Inductive bkind := BAdd | BSub | BMul | BDiv | BMax | BMin | BAvg.

  (** specific_operator (broadcast/*/*Default.py) and fmax/fmin. *)
  Definition bop (k : bkind) : V -> V -> V :=
    match k with
    | BAdd | BAvg => nadd N | BSub => nsub N | BMul => nmul N | BDiv => ndiv N
    | BMax => np_maximum N | BMin => np_minimum N
    end.

  (** (j % W) + W*((i % H) + H*(f % C)), template_Broadcast.c.tpl *)
  Definition bidx (s : shape) (f i j : Z) : Z :=
    (j mod sW s) + sW s * ((i mod sH s) + sH s * (f mod sC s)).

  Definition operand := (bname * shape)%type.
  Definition bread (m : mem) (f i j : Z) (o : operand) : option V := rd m (fst o) (bidx (snd o) f i j).
  Fixpoint read_all (m : mem) (f i j : Z) (ops : list operand) : option (list V) :=
    match ops with
    | [] => Some []
    | o :: ops' => v <- bread m f i j o ;; vs <- read_all m f i j ops' ;; Some (v :: vs)
    end.
  (** tensor_temp[p] = fmax(tensor_temp[p], operand) for each further operand *)
  Fixpoint accumulate (op : V -> V -> V) (f i j p : Z) (ops : list operand) (m : mem) : option mem :=
    match ops with
    | [] => Some m
    | o :: ops' => t <- rd m Temp p ;; v <- bread m f i j o ;; m1 <- wr m Temp p (op t v) ;;
                   accumulate op f i j p ops' m1
    end.

  (** broadcast/Broadcast.py:127-191, templates/layers/template_Broadcast.c.tpl.
      [cst] is the folded constant with its shape (input_shapes[-1]); the
      template uses it in the "other" branch only.  A layer without operands
      gives an ill-formed expression. *)
  Definition broadcast_body (k : bkind) (ops : list operand) (cst : option (shape * list V)) (OH OW f i j : Z)
      (m : mem) : option mem :=
    let p := j + OW * (i + OH * f) in
    match k with
    | BMax | BMin =>
        match ops with
        | [] => None
        | o :: ops' => v <- bread m f i j o ;; m1 <- wr m Temp p v ;; accumulate (bop k) f i j p ops' m1
        end
    | BAvg =>
        vs <- read_all m f i j ops ;;
        match vs with
        | [] => None
        | v :: vs' => wr m Temp p (ndiv N (fold_left (nadd N) vs' v) (nofZ N (zlen ops)))
        end
    | BAdd | BSub | BMul | BDiv =>
        vs <- read_all m f i j ops ;;
        match vs with
        | [] => None
        | v :: vs' =>
            let r := fold_left (bop k) vs' v in
            match cst with
            | None => wr m Temp p r
            | Some (s, w) => c <- rdl w (bidx s f i j) ;; wr m Temp p (bop k r c)
            end
        end
    end.

  Definition broadcast_c (k : bkind) (ops : list operand) (cst : option (shape * list V)) (out : bname)
      (O : shape) (act : V -> V) : mem -> option mem :=
    via_temp
      (for_ (sC O) (fun f => for_ (sH O) (fun i => for_ (sW O) (fun j =>
         broadcast_body k ops cst (sH O) (sW O) f i j))))
      (sC O * sH O * sW O) act out.

  (** ** numpy.  A tensor with its shape; arithmetic between arrays broadcasts
      dimensions of size 1 (numpy manual, "Broadcasting"). *)
  Definition tensor := (shape * list V)%type.
  Definition pick (n k : Z) : Z := if n =? 1 then 0 else k.
  Definition bat (t : tensor) (f i j : Z) : V :=
    at3 (n0 N) (sH (fst t)) (sW (fst t)) (snd t) (pick (sC (fst t)) f) (pick (sH (fst t)) i) (pick (sW (fst t)) j).
  Definition bdim (a b : Z) : option Z :=
    if a =? b then Some a else if a =? 1 then Some b else if b =? 1 then Some a else None.
  Definition bshape (s t : shape) : option shape :=
    c <- bdim (sC s) (sC t) ;; h <- bdim (sH s) (sH t) ;; w <- bdim (sW s) (sW t) ;; Some (mkShape c h w).
  Definition shape_eqb (s t : shape) : bool := (sC s =? sC t) && (sH s =? sH t) && (sW s =? sW t).
  (** np.add(x, y) etc.: None when the shapes are not broadcastable (ValueError). *)
  Definition np_op (op : V -> V -> V) (x y : tensor) : option tensor :=
    s <- bshape (fst x) (fst y) ;;
    Some (s, tab3 (sC s) (sH s) (sW s) (fun f i j => op (bat x f i j) (bat y f i j))).
  (** x += y etc.: None when the result does not have the shape of x (ValueError). *)
  Definition np_iop (op : V -> V -> V) (x y : tensor) : option tensor :=
    r <- np_op op x y ;; if shape_eqb (fst r) (fst x) then Some r else None.
  Fixpoint np_fold (f : tensor -> tensor -> option tensor) (acc : tensor) (xs : list tensor) : option tensor :=
    match xs with
    | [] => Some acc
    | x :: xs' => r <- f acc x ;; np_fold f r xs'
    end.

  Definition scalar (v : V) : tensor := (mkShape 1 1 1, [v]).

  (** forward_path_layer: add/Add.py:112-135, subtract/Subtract.py:126-138,
      multiply/Multiply.py, divide/Divide.py (same structure), average/Average.py:114-119,
      maximum/Maximum.py:125-130, minimum/Minimum.py; float element types.
      Average, Maximum and Minimum index a single operand instead of folding
      (input_arrays is then one array): not modelled, hence two operands. *)
  Definition broadcast_py (k : bkind) (xs : list tensor) (cst : option tensor) (act : V -> V) : option (list V) :=
    match xs with
    | [] => None
    | x :: xs' =>
        r <- match k with
             | BAdd => np_fold (np_iop (bop k)) x xs'
             | BSub => r <- np_fold (np_iop (bop k)) x xs' ;;
                       np_op (bop k) r (match cst with Some c => c | None => scalar (n0 N) end)
             | BMul | BDiv => r <- np_fold (np_iop (bop k)) x xs' ;;
                       np_op (bop k) r (match cst with Some c => c | None => scalar (n1 N) end)
             | BMax | BMin => np_fold (np_op (bop k)) x xs'
             | BAvg => r <- np_fold (np_iop (bop k)) x xs' ;;
                       np_op (ndiv N) r (scalar (nofZ N (zlen xs)))
             end ;;
        Some (map act (snd r))
    end.

  (** average/Average.py:114-119 keeps no copy: [output = input_arrays[0];
      output += ...] adds into the array of the first producer itself.  The
      second component is the content of that array after the call. *)
  Definition average_forward (x : tensor) (xs : list tensor) : option (tensor * tensor) :=
    r <- np_fold (np_iop (nadd N)) x xs ;;
    q <- np_op (ndiv N) r (scalar (nofZ N (1 + zlen xs))) ;;
    Some (q, r).

  (** ** The constructors' checks (e.g. broadcast/Broadcast.py:96-125): the
      output shape is the dimension-wise maximum of the operand (and constant)
      shapes, and every operand dimension is 1 or that of the output. *)
  Definition fits_dim (a o : Z) : Prop := a = 1 \/ a = o.
  Definition fits (s O : shape) : Prop := fits_dim (sC s) (sC O) /\ fits_dim (sH s) (sH O) /\ fits_dim (sW s) (sW O).
  Definition positive (s : shape) : Prop := 0 < sC s /\ 0 < sH s /\ 0 < sW s.
  Definition is_max (l : list Z) (o : Z) : Prop := In o l /\ Forall (fun a => a <= o) l.
  Definition accepted_shapes (ss : list shape) (O : shape) : Prop :=
    Forall positive ss /\ Forall (fun s => fits s O) ss /\
    is_max (map sC ss) (sC O) /\ is_max (map sH ss) (sH O) /\ is_max (map sW ss) (sW O).
  Definition well_shaped (t : tensor) : Prop := zlen (snd t) = sC (fst t) * sH (fst t) * sW (fst t).

  (** ** Initialisers in the ONNX importer,
      importers/ONNX_importer/create_layer.py:1199-1241 (create_div),
      :1244-1284 (create_mul), :1287-1327 (create_sub): operands that are
      initialisers are folded into one constant, starting from
      ones/ones/zeros of the shape of the first operand [s0]; the
      constant is dropped unless all its elements differ from 1/1/0. *)
  Definition np_full (s : shape) (v : V) : tensor := (s, tab3 (sC s) (sH s) (sW s) (fun _ _ _ => v)).
  Definition neutral (k : bkind) : V := match k with BSub => n0 N | _ => n1 N end.
  Definition fold_initializers (k : bkind) (s0 : shape) (inits : list tensor) : option tensor :=
    np_fold (np_op (bop k)) (np_full s0 (neutral k)) inits.
  Definition neq (a b : V) : bool := nlt N a b || nlt N b a.
  Definition keep_constant (k : bkind) (c : tensor) : option tensor :=
    if forallb (fun v => neq v (neutral k)) (snd c) then Some c else None.
  Definition import_constant (k : bkind) (s0 : shape) (inits : list tensor) : option (option tensor) :=
    c <- fold_initializers k s0 inits ;; Some (keep_constant k c).
End Broadcast.
