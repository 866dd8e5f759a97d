(** * Properties C45, C55: NNet models.
    [pre_processing], [post_processing], [normalized_compute_inference]: Python;
    [pre_processing_c], [post_processing_c], [normalized_inference]: emitted C;
    [load_nnet]: the importer (Nnet.v).
    [order_laws] (Activation.v): a strict total order, i.e. no NaN. *)
From Coq Require Import ZArith List Lia Bool QArith Arith.
Import ListNotations.
From Verif Require Import CMem Tensor Num NumInst Activation Movement Graph GraphSpec Net NetProofs LayerKinds ModelProofs
  PropertiesActivation PropertiesMovement Nnet NnetProofs.
Open Scope Z_scope.

(** ** Specification. *)
Section Spec.
  Context (N : num).
  Notation V := (T N).
  (** clamp to [lo, hi], then centre and scale *)
  Definition clamp_to (lo hi x : V) : V := if nlt N x lo then lo else if nlt N hi x then hi else x.
  Definition normalised (lo hi mean range x : V) : V := ndiv N (nsub N (clamp_to lo hi x) mean) range.
  (** The normalised input: element [i] uses the [i]-th bounds, mean and range. *)
  Definition normalised_input (lo hi mean range x : list V) : list V :=
    tab (zlen x) (fun i => normalised (nthZ (n0 N) lo i) (nthZ (n0 N) hi i) (nthZ (n0 N) mean i) (nthZ (n0 N) range i) (nthZ (n0 N) x i)).
  (** The rescaled output: the last mean and range are those of the outputs. *)
  Definition rescaled_output (mean range y : list V) : list V :=
    map (fun v => nadd N (nmul N v (last range (n0 N))) (last mean (n0 N))) y.

  (** The function described by a file: matrices given by rows, a bias per row,
      ReLU after every layer but the last. *)
  Definition affine (w : list (list V)) (b x : list V) : list V :=
    map (fun r => nadd N (nsum N (zlen x) (fun j => nmul N (nthZ (n0 N) x j) (nthZ (n0 N) (fst r) j))) (snd r)) (combine w b).
  Definition relu (v : V) : V := if nlt N (n0 N) v then v else n0 N.
  Fixpoint described (ls : list (list (list V) * list V)) (x : list V) : list V :=
    match ls with
    | [] => x
    | [(w, b)] => affine w b x
    | (w, b) :: ls' => described ls' (map relu (affine w b x))
    end.
  Inductive shaped : list Z -> list (list (list V) * list V) -> Prop :=
  | shaped_nil s : 0 <= s -> shaped [s] []
  | shaped_cons prev cur rest w b ls : 0 <= prev -> zlen w = cur -> Forall (fun row => zlen row = prev) w -> zlen b = cur ->
      shaped (cur :: rest) ls -> shaped (prev :: cur :: rest) ((w, b) :: ls).
  (** The NNet file of given bounds, means, ranges and layers: for each layer
      the rows of its matrix, one per line, then its biases, one per line. *)
  Definition written (lo hi mean range : list V) (sizes : list Z) (ls : list (list (list V) * list V)) : nnet_file N :=
    mkFile N (length ls) sizes
      ([lo; hi; mean; range] ++ concat (map (fun l => fst l ++ map (fun v => [v]) (snd l)) ls)).
End Spec.

(** ** C45 *)
Lemma clamp_python N lo hi x : order_laws N -> nlt N hi lo = false ->
  py_max N lo (py_min N hi x) = clamp_to N lo hi x.
Proof.
  intros O H. unfold py_max, py_min, clamp_to.
  destruct (nlt N x hi) eqn:E1.
  - assert (E3 : nlt N hi x = false).
    { destruct (nlt N hi x) eqn:E; [|reflexivity]. pose proof (lt_trans N O _ _ _ E1 E) as C. rewrite (lt_irrefl N O) in C. discriminate. }
    rewrite E3. destruct (nlt N x lo) eqn:E2.
    + destruct (nlt N lo x) eqn:E; [|reflexivity]. pose proof (lt_trans N O _ _ _ E2 E) as C. rewrite (lt_irrefl N O) in C. discriminate.
    + destruct (nlt N lo x) eqn:E; [reflexivity|]. apply (lt_total N O); assumption.
  - assert (E2 : nlt N x lo = false).
    { destruct (nlt N x lo) eqn:E; [|reflexivity]. destruct (nlt N hi x) eqn:E3.
      - rewrite (lt_trans N O _ _ _ E3 E) in H. discriminate.
      - rewrite (lt_total N O x hi E1 E3) in E. rewrite E in H. discriminate. }
    rewrite E2. destruct (nlt N hi x) eqn:E3.
    + destruct (nlt N lo hi) eqn:E4; [reflexivity|]. apply (lt_total N O); assumption.
    + rewrite (lt_total N O x hi E1 E3). destruct (nlt N lo hi) eqn:E4; [reflexivity|]. apply (lt_total N O); assumption.
Qed.

(** The emitted pre-processing and the Python one compute the specification. *)
Theorem C45_pre_processing : forall (N : num) (nz : normalizer N) (m : mem (T N)),
  order_laws N -> well_formed_normalizer N nz -> zlen (m NnIn) = input_size N nz ->
  pre_processing N nz (m NnIn) = normalised_input N (mins N nz) (maxes N nz) (means N nz) (ranges N nz) (m NnIn) /\
  exists m', pre_processing_c N nz m = Some m' /\ only m m' NnIn /\
    m' NnIn = normalised_input N (mins N nz) (maxes N nz) (means N nz) (ranges N nz) (m NnIn).
Proof.
  intros N nz m O (H0 & _ & Hmn & Hmx & Hme & Hra & Hle) HL. split.
  { unfold pre_processing, normalised_input. apply tab_ext. intros i Hi.
    destruct (Z.ltb_spec i (input_size N nz)); [|lia]. unfold normalised. rewrite clamp_python by first [exact O|apply Hle; lia]. reflexivity. }
  unfold pre_processing_c.
  destruct (map_loop N (input_size N nz) NnIn (fun i x => normalised N (nthZ (n0 N) (mins N nz) i) (nthZ (n0 N) (maxes N nz) i)
    (nthZ (n0 N) (means N nz) i) (nthZ (n0 N) (ranges N nz) i) x)
    (fun i m => x <- rd m NnIn i ;;
      lo <- rdl (mins N nz) i ;;
      mean <- rdl (removelast (means N nz)) i ;;
      range <- rdl (removelast (ranges N nz)) i ;;
      if nlt N x lo then wr m NnIn i (ndiv N (nsub N lo mean) range)
      else
        hi <- rdl (maxes N nz) i ;;
        if nlt N hi x then wr m NnIn i (ndiv N (nsub N hi mean) range)
        else wr m NnIn i (ndiv N (nsub N x mean) range)) m) as (m' & E & OO & R).
  - lia.
  - intros i m' Hi Hl. rewrite (nth_full N m' NnIn i) by lia. cbn [bind].
    rewrite (rdl_nthZ (n0 N) (mins N nz) i) by lia. cbn [bind].
    rewrite !nthZ_removelast by lia. cbn [bind]. unfold normalised, clamp_to.
    destruct (nlt N _ (nthZ (n0 N) (mins N nz) i)); [reflexivity|].
    rewrite (rdl_nthZ (n0 N) (maxes N nz) i) by lia. cbn [bind].
    destruct (nlt N (nthZ (n0 N) (maxes N nz) i) _); reflexivity.
  - exists m'. split; [exact E|]. split; [exact OO|]. rewrite R. unfold normalised_input. apply tab_ext. intros i Hi.
    destruct (Z.ltb_spec i (input_size N nz)); [reflexivity|lia].
Qed.
Print Assumptions C45_pre_processing.

Lemma last_py_last N (l : list (T N)) : py_last N l = last l (n0 N).
Proof.
  destruct l as [|a l]; [reflexivity|]. unfold py_last, nthZ, rdl.
  rewrite zlen_cons. pose proof (zlen_nonneg l). destruct (Z.ltb_spec (1 + zlen l - 1) 0); [lia|].
  replace (Z.to_nat (1 + zlen l - 1)) with (length l) by (unfold zlen; lia).
  revert a. clear. induction l as [|b l IH]; intros a; [reflexivity|]. cbn [length nth_error]. rewrite IH. reflexivity.
Qed.

(** The same for the post-processing; no law is needed. *)
Theorem C45_post_processing : forall (N : num) (nz : normalizer N) (m : mem (T N)),
  zlen (m NnOut) = output_size N nz ->
  post_processing N nz (m NnOut) = rescaled_output N (means N nz) (ranges N nz) (m NnOut) /\
  exists m', post_processing_c N nz m = Some m' /\ only m m' NnOut /\
    m' NnOut = rescaled_output N (means N nz) (ranges N nz) (m NnOut).
Proof.
  intros N nz m HL. split; [unfold post_processing, rescaled_output; rewrite !last_py_last; reflexivity|].
  pose proof (zlen_nonneg (m NnOut)) as HP.
  unfold post_processing_c.
  destruct (map_loop N (output_size N nz) NnOut (fun i v => nadd N (nmul N v (py_last N (ranges N nz))) (py_last N (means N nz)))
    (fun k m => v <- rd m NnOut k ;; wr m NnOut k (nadd N (nmul N v (py_last N (ranges N nz))) (py_last N (means N nz)))) m)
    as (m' & E & OO & R).
  - lia.
  - intros i m' Hi Hl. rewrite (nth_full N m' NnOut i) by lia. reflexivity.
  - exists m'. split; [exact E|]. split; [exact OO|]. rewrite R. unfold rescaled_output. rewrite <- !last_py_last.
    apply list_ext.
    + rewrite zlen_tab by lia. unfold zlen. rewrite map_length. reflexivity.
    + rewrite zlen_tab by lia. intros k Hk. rewrite rdl_tab by lia. destruct (Z.ltb_spec k (output_size N nz)); [|lia].
      unfold rdl. destruct (Z.ltb_spec k 0); [lia|]. rewrite nth_error_map.
      pose proof (rdl_nthZ (n0 N) (m NnOut) k ltac:(lia)) as E1. unfold rdl in E1. destruct (Z.ltb_spec k 0); [lia|].
      rewrite E1. reflexivity.
Qed.
Print Assumptions C45_post_processing.

Lemma normalized_python N (nz : normalizer N) net s x : (forall y, pre net y = y) ->
  normalized_compute_inference N nz net s x =
  option_map (post_processing N nz) (compute_inference net s (pre_processing N nz x)).
Proof.
  intros P. unfold normalized_compute_inference, compute_inference.
  change (pre (normalized_network N nz net) x) with (pre_processing N nz (pre net x)). rewrite !P.
  change (py_loop (normalized_network N nz net)) with (py_loop net).
  destruct (py_loop net _ _) as [st|]; reflexivity.
Qed.

(** The whole inference of a normalised model: the prediction is the rescaled
    documented value of the network on the normalised input, and the Python
    inference returns the same; nn_input is left holding the normalised input. *)
Theorem C45_normalized_model : forall (N : num) (ninf : T N) (q : Q -> T N) (md : model N) inp s (nz : normalizer N) (m : mem (T N)),
  order_laws N -> well_formed_normalizer N nz ->
  supported N md inp -> md_last N md = false -> tri_topo (md_graph N md) = Some s ->
  declared (python_net N ninf q md s) s m ->
  input_size N nz = md_size N md inp -> output_size N nz = md_size N md (last (order s) O) ->
  let x := normalised_input N (mins N nz) (maxes N nz) (means N nz) (ranges N nz) (m NnIn) in
  exists val m',
    evaluates (documented_net N ninf q md s) x val /\
    normalized_inference N nz (python_net N ninf q md s) s m = Some m' /\
    m' NnOut = rescaled_output N (means N nz) (ranges N nz) (val (last (order s) O)) /\
    m' NnIn = x /\
    (python_supported N md ->
     normalized_compute_inference N nz (python_net N ninf q md s) s (m NnIn) = Some (m' NnOut)).
Proof.
  intros N ninf q md inp s nz m O WF SP ML HS D HI HO x.
  assert (LI : zlen (m NnIn) = input_size N nz).
  { rewrite (D NnIn). unfold array_size. rewrite (hd_is_input N md inp s SP HS). symmetry. exact HI. }
  destruct (C45_pre_processing N nz m O WF LI) as (PP & m1 & E1 & O1 & R1).
  destruct (model_values_exist N ninf q md inp s SP HS x) as (val & Hv).
  assert (D1 : declared (python_net N ninf q md s) s m1).
  { intros b. rewrite <- (D b). apply (only_zlen m m1 NnIn b O1). }
  assert (Hv1 : evaluates (documented_net N ninf q md s) (m1 NnIn) val) by (rewrite R1; exact Hv).
  destruct (model_inference_ok N ninf q md inp s SP HS m1 val D1 Hv1) as (m2 & E2 & R2 & D2 & I2).
  change (inference (python_net N ninf q md s) s m1 = Some m2) in E2.
  assert (PO : md_post N md s (val (last (order s) 0%nat)) = val (last (order s) 0%nat)).
  { unfold md_post. rewrite ML. destruct (out_channels N _) as [[[? ?] ?]|]; reflexivity. }
  rewrite PO in R2.
  assert (LO : zlen (m2 NnOut) = output_size N nz) by (rewrite (D2 NnOut); symmetry; exact HO).
  destruct (C45_post_processing N nz m2 LO) as (PQ & m3 & E3 & O3 & R3).
  exists val, m3. split; [exact Hv|]. split.
  { unfold normalized_inference. rewrite E1. cbn [bind]. rewrite E2. cbn [bind]. exact E3. }
  split; [rewrite R3, R2; reflexivity|]. split.
  { destruct O3 as [_ O3]. rewrite O3 by discriminate. rewrite I2. exact R1. }
  intros PS. rewrite normalized_python.
  2:{ intros y. cbn [python_net net_with pre]. unfold md_pre. rewrite ML. destruct (lk N md _); reflexivity. }
  rewrite PP. fold x. rewrite (model_python_ok N ninf q md inp s SP HS x val PS).
  - cbn [option_map]. rewrite PO. rewrite R3. f_equal. rewrite <- R2. exact PQ.
  - unfold x, normalised_input. rewrite zlen_tab by apply zlen_nonneg. rewrite LI. exact HI.
  - exact Hv.
Qed.
Print Assumptions C45_normalized_model.

(** *** Refuted: with NaN the two differ.  Integers extended with a NaN that
    compares false with everything: the Python clamp turns NaN into the upper
    bound, the C code keeps NaN. *)
Definition NaNnum : num :=
  let lift f a b := match a, b with Some x, Some y => Some (f x y) | _, _ => None end in
  mkNum (option Z) (Some 0) (Some 1) (lift Z.add) (lift Z.sub) (lift Z.mul) (lift Z.div)
    (fun a b => match a, b with Some x, Some y => x <? y | _, _ => false end)
    (fun x => x) (fun x => x) (fun x => x) (fun x => x) Some.
Definition nan_normalizer : normalizer NaNnum :=
  mkNormalizer NaNnum 1 1 [Some 0] [Some 10] [Some 2; Some 0] [Some 2; Some 1].
Theorem C45_nan_refuted :
  well_formed_normalizer NaNnum nan_normalizer /\
  pre_processing NaNnum nan_normalizer [None] = [Some 4] /\
  option_map (fun m : mem (option Z) => m NnIn)
    (pre_processing_c NaNnum nan_normalizer (fun b => match b with NnIn => [None] | _ => [] end)) = Some [None].
Proof.
  split; [|split; reflexivity].
  split; [cbn; lia|]. split; [cbn; lia|]. split; [reflexivity|]. split; [reflexivity|]. split; [reflexivity|]. split; [reflexivity|].
  intros i Hi. cbn in Hi. assert (i = 0) by lia. subst i. reflexivity.
Qed.
Print Assumptions C45_nan_refuted.

(** ** C55: a file describing well-shaped layers is loaded, and the loaded
    model computes the described function, in C and in Python, with and
    without normalisation. *)
Section Load.
  Context (N : num).
  Notation V := (T N).
  Notation z := (n0 N).

  Lemma read_rows_ok prev w rest : 0 <= prev -> Forall (fun row => zlen row = prev) w ->
    read_rows N (length w) prev (w ++ rest) = Some (w, rest).
  Proof.
    intros Hp F. induction F as [|r w Hr F IH]; [reflexivity|]. cbn [length read_rows app readline hd tl].
    unfold readline. cbn [hd tl]. destruct (Z.ltb_spec (zlen r) prev); [lia|]. rewrite IH. cbn [bind fst snd].
    rewrite firstn_all2 by (unfold zlen in Hr; lia). reflexivity.
  Qed.
  Lemma read_biases_ok b rest : read_biases N (length b) (map (fun v => [v]) b ++ rest) = Some (b, rest).
  Proof.
    induction b as [|v b IH]; [reflexivity|]. cbn [length read_biases map app]. unfold readline. cbn [hd tl].
    rewrite IH. reflexivity.
  Qed.
  Lemma read_layers_ok sizes ls : shaped N sizes ls ->
    read_layers N (length ls) sizes (concat (map (fun l => fst l ++ map (fun v => [v]) (snd l)) ls)) = Some ls.
  Proof.
    intros S. induction S as [s Hs|prev cur rest w b ls Hp Hw F Hb S IH]; [reflexivity|].
    cbn [length read_layers map concat fst snd]. rewrite <- app_assoc.
    replace (Z.to_nat cur) with (length w) at 1 by (unfold zlen in Hw; lia).
    rewrite read_rows_ok by assumption. cbn [bind fst snd].
    replace (Z.to_nat cur) with (length b) by (unfold zlen in Hb; lia).
    rewrite read_biases_ok. cbn [bind fst snd]. rewrite IH. reflexivity.
  Qed.

  Lemma shaped_length sizes ls : shaped N sizes ls -> length sizes = S (length ls).
  Proof. intros S. induction S; cbn in *; lia. Qed.
  Lemma shaped_sizes sizes ls : shaped N sizes ls -> forall i, 0 <= nth i sizes 0.
  Proof.
    intros S. induction S as [s Hs|prev cur rest w b ls Hp Hw F Hb S IH]; intros [|i]; cbn; try lia.
    - destruct i; lia.
    - apply IH.
  Qed.
  Lemma shaped_layer sizes ls : shaped N sizes ls -> forall j w b, nth_error ls j = Some (w, b) ->
    zlen w = nth (S j) sizes 0 /\ Forall (fun row => zlen row = nth j sizes 0) w /\ zlen b = nth (S j) sizes 0.
  Proof.
    intros S. induction S as [s Hs|prev cur rest w b ls Hp Hw F Hb S IH]; intros j w' b' E; [destruct j; discriminate|].
    destruct j as [|j].
    - injection E as <- <-. cbn. auto.
    - apply (IH j w' b' E).
  Qed.

  Definition nnet_model (sizes : list Z) (ls : list (list (list V) * list V)) : model N :=
    mkModel N (chain (length ls)) (generated_layer N (length ls) sizes ls) false.

  Lemma generated sizes ls j : (j < length ls)%nat -> exists w b, nth_error ls j = Some (w, b) /\
    generated_layer N (length ls) sizes ls (S j) =
      mkLayer N (KDense N (nth j sizes 0) (nth (S j) sizes 0) (transposed N (nth j sizes 0) (nth (S j) sizes 0) w) b)
        (if Nat.eqb (S j) (length ls) then LinearAct else ReLu).
  Proof.
    intros H. destruct (nth_error ls j) as [[w b]|] eqn:E; [|apply nth_error_None in E; lia].
    exists w, b. split; [reflexivity|]. unfold generated_layer. rewrite (nth_error_nth ls j _ E). reflexivity.
  Qed.

  Lemma zlen_transposed prev cur w : 0 <= prev -> 0 <= cur -> zlen (transposed N prev cur w) = prev * cur.
  Proof. intros. apply zlen_tab. nia. Qed.

  Lemma nnet_supported sizes ls : shaped N sizes ls ->
    supported N (nnet_model sizes ls) 0 /\ python_supported N (nnet_model sizes ls).
  Proof.
    intros S. pose proof (shaped_sizes sizes ls S) as SZ. split.
    - constructor; cbn [nnet_model md_graph].
      + apply chain_linked.
      + exists (fun i => i). intros p s Hp Hs. cbn [next_layer chain] in Hs. destruct (Nat.ltb p (length ls)); [destruct Hs as [<-|[]]; lia|destruct Hs].
      + intros s Hs. cbn [previous_layer chain]. destruct s as [|s]; [constructor|]. destruct (Nat.leb (Datatypes.S s) (length ls)); repeat constructor; auto.
      + intros n Hn. split; [discriminate|]. intros (w & E). exfalso. unfold lk in E. cbn [md_layer nnet_model] in E.
        destruct n as [|j]; [discriminate|]. apply in_seq in Hn.
        destruct (generated sizes ls j) as (w' & b' & _ & G); [lia|]. rewrite G in E. discriminate.
      + intros c Hc E. discriminate E.
      + split; [reflexivity|]. split; [reflexivity|]. split; [reflexivity|]. intros s Hs Hne _. exists (Nat.pred s).
        apply in_seq in Hs. destruct s as [|s]; [lia|]. cbn [previous_layer chain Nat.pred].
        replace (Nat.leb (Datatypes.S s) (length ls)) with true by (symmetry; apply Nat.leb_le; lia). split; [left; reflexivity|reflexivity].
      + right. eexists. reflexivity.
      + intros n Hn HP. destruct n as [|j]; [exfalso; apply HP; reflexivity|]. apply in_seq in Hn.
        destruct (generated sizes ls j) as (w & b & E & G); [lia|].
        cbn [md_layer nnet_model]. rewrite G. cbn [previous_layer chain].
        replace (Nat.leb (Datatypes.S j) (length ls)) with true by (symmetry; apply Nat.leb_le; lia).
        destruct (shaped_layer sizes ls S j w b E) as (L1 & L2 & L3).
        split; [left; cbn [lact]; destruct (Nat.eqb (Datatypes.S j) (length ls)); exact I|]. cbn [lkind].
        split; [|split; [apply SZ|split; [apply SZ|split; [apply zlen_transposed; apply SZ|exact L3]]]].
        cbn [map]. unfold md_size, lk. cbn [md_layer nnet_model]. destruct j as [|j]; [reflexivity|].
        destruct (generated sizes ls j) as (w' & b' & _ & G'); [lia|]. rewrite G'. reflexivity.
      + intros n p cl C H W Hn E. exfalso. unfold lk in E. cbn [md_layer nnet_model] in E.
        destruct n as [|j]; [discriminate|]. apply in_seq in Hn.
        destruct (generated sizes ls j) as (w' & b' & _ & G); [lia|]. rewrite G in E. discriminate.
    - split; [|discriminate]. intros n Hn. cbn [md_layer nnet_model md_graph] in *. destruct n as [|j]; [exact I|]. apply in_seq in Hn.
      destruct (generated sizes ls j) as (w & b & E & G); [lia|]. rewrite G. exact I.
  Qed.

  Lemma last_order num : last (order (chain_schedule num)) O = num.
  Proof. cbn [order chain_schedule]. rewrite seq_S. apply last_last. Qed.

  Lemma dense_affine prev cur w b (act : V -> V) x :
    0 <= prev -> zlen w = cur -> Forall (fun row => zlen row = prev) w -> zlen b = cur -> zlen x = prev ->
    tab cur (fun i => act (nadd N (nsum N prev (fun j => nmul N (nthZ z x j) (at2 z cur (transposed N prev cur w) j i))) (nthZ z b i)))
    = map act (affine N w b x).
  Proof.
    intros Hp Hw F Hb Hx. pose proof (zlen_nonneg w) as Hc.
    assert (LC : zlen (combine w b) = cur) by (unfold zlen in *; rewrite combine_length; lia).
    apply list_ext.
    - rewrite zlen_tab by lia. unfold affine. unfold zlen at 1. rewrite !map_length. exact (eq_sym LC).
    - rewrite zlen_tab by lia. intros i Hi. rewrite rdl_tab by lia.
      unfold affine. rewrite map_map. unfold rdl. destruct (Z.ltb_spec i 0); [lia|]. rewrite nth_error_map.
      assert (EC : nth_error (combine w b) (Z.to_nat i) = Some (nthZ [] w i, nthZ z b i)).
      { pose proof (rdl_nthZ [] w i ltac:(lia)) as E1. pose proof (rdl_nthZ z b i ltac:(lia)) as E2.
        unfold rdl in E1, E2. destruct (Z.ltb_spec i 0); [lia|]. clear - E1 E2.
        revert E1 E2. generalize (nthZ z b i) as v. generalize (nthZ [] w i) as u. generalize (Z.to_nat i) as k. intros k. revert w b.
        induction k as [|k IH]; intros [|a w] [|c b] u v E1 E2; cbn in *; try discriminate; try congruence. apply IH; assumption. }
      rewrite EC. cbn [option_map fst snd]. f_equal. f_equal. f_equal. rewrite Hx. apply nsum_ext. intros j Hj. f_equal.
      unfold at2, transposed, tab2. rewrite nthZ_tab by nia.
      replace (i + cur * j) with (j * cur + i) by lia.
      rewrite Z.div_add_l, Z.div_small by lia. rewrite Z.add_0_r.
      rewrite (Z.add_comm (j * cur)), Z_mod_plus_full, Z.mod_small by lia. reflexivity.
  Qed.

  Lemma nnet_value ninf q sizes ls x val : shaped N sizes ls -> zlen x = nth O sizes 0 ->
    evaluates (documented_net N ninf q (nnet_model sizes ls) (chain_schedule (length ls))) x val ->
    val (length ls) = described N ls x.
  Proof.
    intros S Hx HV. pose proof (shaped_sizes sizes ls S) as SZ.
    assert (V0 : val O = x).
    { rewrite (HV O) by (apply in_seq; lia). reflexivity. }
    assert (VS : forall j w b, nth_error ls j = Some (w, b) -> val (Datatypes.S j) =
      tab (nth (Datatypes.S j) sizes 0) (fun i => compute N (if Nat.eqb (Datatypes.S j) (length ls) then LinearAct else ReLu)
        (nadd N (nsum N (nth j sizes 0) (fun k => nmul N (nthZ z (val j) k)
           (at2 z (nth (Datatypes.S j) sizes 0) (transposed N (nth j sizes 0) (nth (Datatypes.S j) sizes 0) w) k i))) (nthZ z b i)))).
    { intros j w b E. assert (Hj : (j < length ls)%nat) by (apply nth_error_Some; congruence).
      rewrite (HV (Datatypes.S j)) by (apply in_seq; lia).
      cbn [documented_net net_with forward net_graph nnet_model md_graph previous_layer chain md_layer].
      replace (Nat.leb (Datatypes.S j) (length ls)) with true by (symmetry; apply Nat.leb_le; lia).
      destruct (generated sizes ls j Hj) as (w' & b' & E' & G). rewrite E in E'. injection E' as <- <-.
      change (md_layer N (nnet_model sizes ls) (Datatypes.S j)) with (generated_layer N (length ls) sizes ls (Datatypes.S j)).
      rewrite G. reflexivity. }
    assert (ZS : forall j, (j <= length ls)%nat -> zlen (val j) = nth j sizes 0).
    { intros [|j] Hj; [rewrite V0; exact Hx|]. destruct (nth_error ls j) as [[w b]|] eqn:E; [|apply nth_error_None in E; lia].
      rewrite (VS j w b E). apply zlen_tab. apply SZ. }
    assert (G : forall k j, (j + k = length ls)%nat -> val (length ls) = described N (skipn j ls) (val j)).
    { induction k as [|k IH]; intros j E.
      - replace j with (length ls) by lia. rewrite skipn_all. reflexivity.
      - destruct (nth_error ls j) as [[w b]|] eqn:E1; [|apply nth_error_None in E1; lia].
        rewrite (IH (Datatypes.S j)) by lia.
        destruct (shaped_layer sizes ls S j w b E1) as (L1 & L2 & L3).
        assert (SK : skipn j ls = (w, b) :: skipn (Datatypes.S j) ls).
        { clear - E1. revert j E1. induction ls as [|a l IHl]; intros [|j] E1; cbn in *; try discriminate; [congruence|]. apply IHl. exact E1. }
        assert (LS : length (skipn (Datatypes.S j) ls) = k) by (rewrite skipn_length; lia).
        rewrite SK, (VS j w b E1). rewrite dense_affine; auto; [|apply ZS; lia].
        destruct k as [|k].
        + replace (Nat.eqb (Datatypes.S j) (length ls)) with true by (symmetry; apply Nat.eqb_eq; lia).
          destruct (skipn (Datatypes.S j) ls); [|discriminate]. cbn [described]. apply map_id.
        + replace (Nat.eqb (Datatypes.S j) (length ls)) with false by (symmetry; apply Nat.eqb_neq; lia).
          destruct (skipn (Datatypes.S j) ls) as [|p l]; [discriminate|]. reflexivity. }
    rewrite (G (length ls) O) by lia. rewrite V0. reflexivity.
  Qed.
End Load.

Theorem C55_nnet_import : forall (N : num) (ninf : T N) (q : Q -> T N) lo hi mean range sizes ls,
  shaped N sizes ls ->
  exists md s nz, load_nnet N (written N lo hi mean range sizes ls) = Some (md, s, nz) /\
  let net := python_net N ninf q md s in
  forall m : mem (T N), declared net s m ->
  (* without normalisation *)
  (exists m', inference net s m = Some m' /\ m' NnOut = described N ls (m NnIn) /\
     compute_inference net s (m NnIn) = Some (described N ls (m NnIn))) /\
  (* with normalisation *)
  (order_laws N -> zlen lo = hd 0 sizes -> zlen hi = hd 0 sizes -> zlen mean = hd 0 sizes + 1 -> zlen range = hd 0 sizes + 1 ->
   (forall i, 0 <= i < hd 0 sizes -> nlt N (nthZ (n0 N) hi i) (nthZ (n0 N) lo i) = false) ->
   let y := rescaled_output N mean range (described N ls (normalised_input N lo hi mean range (m NnIn))) in
   exists m', normalized_inference N nz net s m = Some m' /\ m' NnOut = y /\
     normalized_compute_inference N nz net s (m NnIn) = Some y).
Proof.
  intros N ninf q lo hi mean range sizes ls S.
  pose proof (shaped_length N sizes ls S) as HL. pose proof (shaped_sizes N sizes ls S) as SZ.
  destruct (nnet_supported N sizes ls S) as [SP PS].
  exists (nnet_model N sizes ls), (chain_schedule (length ls)), (mkNormalizer N (hd 0 sizes) (last sizes 0) lo hi mean range).
  split.
  { unfold load_nnet, written. cbn [body readline app hd tl num_layers layer_sizes]. unfold readline. cbn [hd tl].
    destruct sizes as [|s0 sizes]; [discriminate|]. rewrite read_layers_ok by exact S. reflexivity. }
  intros net m D.
  pose proof (chain_tri_topo (length ls)) as HS. change (chain (length ls)) with (md_graph N (nnet_model N sizes ls)) in HS.
  assert (LL : last (order (chain_schedule (length ls))) O = length ls) by apply last_order.
  assert (ZI : zlen (m NnIn) = nth O sizes 0).
  { rewrite (D NnIn). unfold array_size. rewrite (hd_is_input N _ O _ SP HS). reflexivity. }
  split.
  - destruct (model_values_exist N ninf q _ O _ SP HS (m NnIn)) as (val & Hv).
    pose proof (nnet_value N ninf q sizes ls (m NnIn) val S ZI Hv) as EV.
    destruct (model_inference_ok N ninf q _ O _ SP HS m val D Hv) as (m' & E & R & _).
    assert (PO : forall v, md_post N (nnet_model N sizes ls) (chain_schedule (length ls)) v = v).
    { intros v. unfold md_post. cbn [md_last nnet_model]. destruct (out_channels N _) as [[[? ?] ?]|]; reflexivity. }
    exists m'. split; [exact E|]. rewrite R, PO, LL, EV. split; [reflexivity|].
    unfold net. rewrite (model_python_ok N ninf q _ O _ SP HS (m NnIn) val PS); [rewrite PO, LL, EV; reflexivity| |exact Hv].
    rewrite ZI. reflexivity.
  - intros O Llo Lhi Lme Lra Hle y.
    assert (H0 : hd 0 sizes = nth 0 sizes 0) by (destruct sizes; reflexivity).
    pose proof (SZ 0%nat) as P0.
    assert (LS : last sizes 0 = nth (length ls) sizes 0).
    { clear - HL. destruct (exists_last (l := sizes)) as (l & a & E); [intros ->; discriminate|]. rewrite E in *.
      rewrite last_last. rewrite app_length in HL. cbn [length] in HL. rewrite app_nth2 by lia.
      replace (length ls - length l)%nat with 0%nat by lia. reflexivity. }
    assert (WF : well_formed_normalizer N (mkNormalizer N (hd 0 sizes) (last sizes 0) lo hi mean range)).
    { unfold well_formed_normalizer. cbn [input_size output_size mins maxes means ranges].
      split; [lia|]. split; [rewrite LS; apply SZ|]. auto 10. }
    destruct (C45_normalized_model N ninf q (nnet_model N sizes ls) 0%nat (chain_schedule (length ls))
      (mkNormalizer N (hd 0 sizes) (last sizes 0) lo hi mean range) m) as (val & m' & Hv & E & R & I & P); auto.
    { cbn [output_size]. rewrite LL, LS. unfold md_size, lk. cbn [md_layer nnet_model].
      destruct (length ls) as [|j] eqn:EL; [reflexivity|].
      destruct (generated N sizes ls j) as (w1 & b1 & _ & G); [lia|]. rewrite EL in G. rewrite G. reflexivity. }
    cbn [mins maxes means ranges] in *.
    rewrite LL in R. rewrite (nnet_value N ninf q sizes ls _ val S) with (2 := Hv) in R.
    + exists m'. split; [exact E|]. split; [exact R|]. unfold y. rewrite <- R. exact (P PS).
    + unfold normalised_input. rewrite zlen_tab by apply zlen_nonneg. exact ZI.
Qed.
Print Assumptions C55_nnet_import.

(** A network 2 -> 3 -> 1 over the integers. *)
Definition ex_nnet_layers : list (list (list Z) * list Z) :=
  [([[1;2];[3;-4];[0;1]], [10;0;-5]); ([[1;1;2]], [100])].
Definition ex_nnet : nnet_file Znum := written Znum [0;-10] [20;10] [2;1;7] [2;3;10] [2;3;1] ex_nnet_layers.
Definition ex_nnet_memory (x : list Z) : mem Z := fun b =>
  match b with NnIn => x | NnOut => [0] | Out O => [9;9;9] | Temp => [8;8;8] | _ => [] end.
Example C55_example_shaped : shaped Znum [2;3;1] ex_nnet_layers.
Proof. repeat constructor; try lia. Qed.
Example C55_example :
  match load_nnet Znum ex_nnet with
  | Some (md, s, nz) =>
      let net := python_net Znum 0 (fun x => Qnum x) md s in
      (forall b, zlen (ex_nnet_memory [3;4] b) = array_size net s b) /\
      option_map (fun m : mem Z => m NnOut) (inference net s (ex_nnet_memory [3;4])) = Some [121] /\
      described Znum ex_nnet_layers [3;4] = [121] /\
      (* 50 is clamped to 20; (20-2)/2 = 9, (4-1)/3 = 1; result *10 + 7 *)
      option_map (fun m : mem Z => m NnOut) (normalized_inference Znum nz net s (ex_nnet_memory [50;4])) = Some [1447] /\
      normalized_compute_inference Znum nz net s [50;4] = Some [1447]
  | None => False
  end.
Proof. vm_compute. split; [intros [[|k]|k| | |]; reflexivity|]. split; [reflexivity|]. split; [reflexivity|]. split; reflexivity. Qed.

(** *** Refuted: successive calls are not independent when normalisation is
    generated and the caller keeps its input array: the emitted code normalises
    nn_input in place, so a second call on the same array normalises twice. *)
Theorem C10_normalized_second_call_refuted :
  exists md s nz m1 m2,
    load_nnet Znum ex_nnet = Some (md, s, nz) /\
    normalized_inference Znum nz (python_net Znum 0 (fun x => Qnum x) md s) s (ex_nnet_memory [12;4]) = Some m1 /\
    normalized_inference Znum nz (python_net Znum 0 (fun x => Qnum x) md s) s m1 = Some m2 /\
    m1 NnIn = [5;1] /\ m1 NnOut <> m2 NnOut.
Proof.
  do 5 eexists. split; [vm_compute; reflexivity|]. split; [vm_compute; reflexivity|]. split; [vm_compute; reflexivity|].
  split; [vm_compute; reflexivity|]. vm_compute. congruence.
Qed.
Print Assumptions C10_normalized_second_call_refuted.
