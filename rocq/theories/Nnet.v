(** * NNet models: importer, normalisation, and the inference around it.
    Sources: importers/NNET_importer/parser_NNET.py,
    importers/NNET_importer/nnet_normalize.py, templates/normalization/*.tpl,
    generator/neural_network.py:494-583, templates/template_source_file.c.tpl. *)
From Coq Require Import ZArith List Lia Bool QArith.
Import ListNotations.
From Verif Require Import CMem Tensor Num Activation Movement Graph Net LayerKinds.
Open Scope Z_scope.

Section Nnet.
  Context (N : num).
  Notation V := (T N).
  Notation mem := (mem V).
  Notation z := (n0 N).

  (** nnet_normalize.py:33-55 Normalizer.__init__ *)
  Record normalizer := mkNormalizer {
    input_size : Z; output_size : Z; mins : list V; maxes : list V; means : list V; ranges : list V }.

  (** Python's built-in min(a, b) and max(a, b): the first argument unless the
      second is strictly smaller (greater). *)
  Definition py_min (a b : V) : V := if nlt N b a then b else a.
  Definition py_max (a b : V) : V := if nlt N a b then b else a.
  (** Python's l[-1] *)
  Definition py_last (l : list V) : V := nthZ z l (zlen l - 1).

  (** nnet_normalize.py:133-142.  The intermediate store of the clamped value
      into the (possibly narrower) numpy array is not modelled. *)
  Definition pre_processing (nz : normalizer) (x : list V) : list V :=
    tab (zlen x) (fun i =>
      if i <? input_size nz then
        ndiv N (nsub N (py_max (nthZ z (mins nz) i) (py_min (nthZ z (maxes nz) i) (nthZ z x i))) (nthZ z (means nz) i))
               (nthZ z (ranges nz) i)
      else nthZ z x i).
  (** nnet_normalize.py:144-151 *)
  Definition post_processing (nz : normalizer) (y : list V) : list V :=
    map (fun v => nadd N (nmul N v (py_last (ranges nz))) (py_last (means nz))) y.

  (** template_pre_processing.c.tpl:2-17.  The four arrays are initialised with
      mins, maxes, means[:-1] and ranges[:-1] (nnet_normalize.py:112-121).
      nn_input is written in place. *)
  Definition pre_processing_c (nz : normalizer) : mem -> option mem :=
    for_ (input_size nz) (fun i m =>
      x <- rd m NnIn i ;;
      lo <- rdl (mins nz) i ;;
      mean <- rdl (removelast (means nz)) i ;;
      range <- rdl (removelast (ranges nz)) i ;;
      if nlt N x lo then wr m NnIn i (ndiv N (nsub N lo mean) range)
      else
        hi <- rdl (maxes nz) i ;;
        if nlt N hi x then wr m NnIn i (ndiv N (nsub N hi mean) range)
        else wr m NnIn i (ndiv N (nsub N x mean) range)).
  (** template_post_processing.c.tpl:2-5; output_range and output_mean are
      ranges[-1] and means[-1]. *)
  Definition post_processing_c (nz : normalizer) : mem -> option mem :=
    for_ (output_size nz) (fun k m =>
      v <- rd m NnOut k ;;
      wr m NnOut k (nadd N (nmul N v (py_last (ranges nz))) (py_last (means nz)))).

  (** template_source_file.c.tpl: pre_processing before the layers,
      post_processing after the output copy. *)
  Definition normalized_inference (nz : normalizer) (net : network V) (s : schedule) (m : mem) : option mem :=
    m1 <- pre_processing_c nz m ;;
    m2 <- inference net s m1 ;;
    post_processing_c nz m2.
  (** neural_network.py:494-583 with normalize = True: the normalisation comes
      after the conversion of the input and after the conversion of the output. *)
  Definition normalized_network (nz : normalizer) (net : network V) : network V :=
    mkNet (net_graph net) (size net) (patches_size net) (is_concat net) (code net) (forward net)
      (fun x => pre_processing nz (pre net x)) (fun y => post_processing nz (post net y)) (output_code net).
  Definition normalized_compute_inference (nz : normalizer) (net : network V) (s : schedule) (x : list V) : option (list V) :=
    compute_inference (normalized_network nz net) s x.

  (** ** The importer.  A line of the file is given by its numbers, in the
      notation "a,b,c," with a trailing comma; the first two lines (integers)
      are given apart, comment lines and the third line are skipped
      (parser_NNET.py:110-128). *)
  Definition line := list V.
  Record nnet_file := mkFile { num_layers : nat; layer_sizes : list Z; body : list line }.
  (** readline: an empty line at the end of the file *)
  Definition readline (ls : list line) : line * list line := (hd [] ls, tl ls).
  (** parser_NNET.py:151-156; aux[j] raises IndexError on a short line *)
  Fixpoint read_rows (cur : nat) (prev : Z) (ls : list line) : option (list (list V) * list line) :=
    match cur with
    | O => Some ([], ls)
    | S c =>
      let (aux, ls1) := readline ls in
      if zlen aux <? prev then None
      else r <- read_rows c prev ls1 ;; Some (firstn (Z.to_nat prev) aux :: fst r, snd r)
    end.
  (** parser_NNET.py:159-162; float("") raises ValueError *)
  Fixpoint read_biases (cur : nat) (ls : list line) : option (list V * list line) :=
    match cur with
    | O => Some ([], ls)
    | S c =>
      match readline ls with
      | (v :: _, ls1) => r <- read_biases c ls1 ;; Some (v :: fst r, snd r)
      | ([], _) => None
      end
    end.
  (** parser_NNET.py:144-162; layer_sizes[layernum + 1] may raise IndexError *)
  Fixpoint read_layers (num : nat) (sizes : list Z) (ls : list line) : option (list (list (list V) * list V)) :=
    match num with
    | O => Some []
    | S num' =>
      match sizes with
      | prev :: ((cur :: _) as sizes') =>
        w <- read_rows (Z.to_nat cur) prev ls ;;
        b <- read_biases (Z.to_nat cur) (snd w) ;;
        r <- read_layers num' sizes' (snd b) ;;
        Some ((fst w, fst b) :: r)
      | _ => None
      end
    end.
  (** parser_NNET.py:167: np.transpose(np.array(weight)), flattened *)
  Definition transposed (prev cur : Z) (w : list (list V)) : list V :=
    tab2 prev cur (fun j i => nthZ z (nthZ [] w i) j).

  (** parser_NNET.py:33-80 generate_layers: layer 0 is the input, layer i the
      Dense layer of weights[i-1]; the last layer's activation is replaced. *)
  Definition generated_layer (num : nat) (sizes : list Z) (ws : list (list (list V) * list V)) (i : nat) : layer N :=
    match i with
    | O => mkLayer N (KInput N (nth O sizes 0)) LinearAct
    | S j =>
      let prev := nth j sizes 0 in let cur := nth i sizes 0 in
      let (w, b) := nth j ws ([], []) in
      mkLayer N (KDense N prev cur (transposed prev cur w) b) (if Nat.eqb i num then LinearAct else ReLu)
    end.
  (** parser_NNET.py:72-74: each layer is linked to the one before it. *)
  Definition chain (num : nat) : graph :=
    mkGraph (seq 0 (S num))
      (fun i => match i with O => [] | S j => if Nat.leb i num then [j] else [] end)
      (fun i => if Nat.ltb i num then [S i] else [])
      (fun _ => false).
  (** parser_NNET.py:55,69 (layer.path = 0), :99-100 (max_road = 1, dict_cst = {}) *)
  Definition chain_schedule (num : nat) : schedule :=
    mkSchedule (seq 0 (S num)) (map (fun i => (i, O)) (rev (seq 0 (S num)))) [] 1.

  (** parser_NNET.py:83-190 load_nnet *)
  Definition load_nnet (f : nnet_file) : option (model N * schedule * normalizer) :=
    let (mn, l1) := readline (body f) in
    let (mx, l2) := readline l1 in
    let (me, l3) := readline l2 in
    let (ra, l4) := readline l3 in
    match layer_sizes f with
    | [] => None
    | s0 :: _ =>
      ws <- read_layers (num_layers f) (layer_sizes f) l4 ;;
      Some (mkModel N (chain (num_layers f)) (generated_layer (num_layers f) (layer_sizes f) ws) false,
            chain_schedule (num_layers f),
            mkNormalizer s0 (last (layer_sizes f) 0) mn mx me ra)
    end.
End Nnet.
