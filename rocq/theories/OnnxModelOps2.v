(** * The layer of each covered ONNX node computes the node (used by C72). *)
From Coq Require Import String.
From Coq Require Import ZArith List Lia Bool Reals Lra QArith.
Import ListNotations.
Open Scope list_scope.
Open Scope Z_scope.
From Verif Require Import CMem Tensor Num RealInst Graph Import LayerKinds LayerKindsProofs OnnxOps OnnxLinear OnnxWindow OnnxMisc.
From Verif Require Activation Broadcast Pooling Pad Movement Conv KerasOps.
From Verif Require Import OnnxSpec OnnxOpsProofs OnnxWindowSpec OnnxLinearSpec OnnxMiscSpec ExportSpec ExportDet OnnxModelSpec OnnxModel.
From Verif Require Import PropertiesActivation PropertiesOnnxOps PropertiesOnnxReduce PropertiesOnnxWindow PropertiesOnnxElementwise PropertiesOnnxLinear PropertiesOnnxPad PropertiesOnnxActivation PropertiesOnnxBypass OnnxModelOps.

Ltac inv_node H :=
  inversion H; subst; clear H; try discriminate;
  try (match goal with G : unary_of (String _ _) _ = Some _ |- _ => exfalso; vm_compute in G; discriminate G end);
  try (match goal with G : variadic_of (String _ _) = Some _ |- _ => exfalso; vm_compute in G; discriminate G end);
  try (match goal with G : binary_of (String _ _) = Some _ |- _ => exfalso; vm_compute in G; discriminate G end);
  try (match goal with G : reduction_of (String _ _) = Some _ |- _ => exfalso; vm_compute in G; discriminate G end);
  try (match goal with G : (?s = _ /\ _) \/ (?s = _ /\ _) |- _ => exfalso; destruct G as [(G & _)|(G & _)]; subst; discriminate end).
Ltac inv_op H := 
  inversion H; subst; clear H; try discriminate;
  [ match goal with
    | G : ~ In _ _ |- _ => exfalso; apply G; cbn; tauto
    | G : node_holds _ _ _ _ |- _ => inv_node G
    end | .. ] || (match goal with G : node_holds _ _ _ _ |- _ => inv_node G end).

Section Ops.
  Variables (m : source) (env : string -> option tensor).
  Hypothesis F : run_facts m env.

  (** An element-wise function. *)
  Lemma unary_layer op a i o u0 u : unary_of op a = Some u0 -> (forall x, onnx_unary u0 x = onnx_unary u x) -> read_activation op a = Some (node_of u) -> parameters_ok u ->
    import_layer SixLoops m (mkONode op a [i] o) =
      (n <- read_activation op a ;; L <- create_activation Rnum (1 / 100)%R n (raw_shape m o) ;;
        match snd L with WithCode f => Some ([i], mkLayer Rnum (KActivation Rnum (fst L)) f) | NoCode => None end) ->
    produced m i -> produced m o -> node_holds op a [env i] (TFloat (run_dims (raw_shape m o)) (data env o)) ->
    exists rec L, good m env (mkONode op a [i] o) rec L.
  Proof.
    intros EU0 EU ER PO EI Pi Po H. pose proof (rf_produced _ _ F _ Pi) as Ci. pose proof (rf_produced _ _ F _ Po) as Co.
    assert (V : data env o = map (onnx_unary u) (data env i) /\ run_dims (raw_shape m o) = run_dims (raw_shape m i)).
    { rewrite (cp_env _ _ _ Ci) in H. assert (H2 : node_holds op a [Some (TFloat (run_dims (raw_shape m i)) (data env i))] (TFloat (run_dims (raw_shape m i)) (map (onnx_unary u) (data env i)))) by (rewrite (map_ext _ _ (fun x => eq_sym (EU x))); constructor; exact EU0).
      pose proof (node_det _ _ _ _ _ _ H2 H (run_sized _ (cp_sample _ _ _ Ci))) as G.
      assert (HH : forall ds x, hd None [Some (TFloat (run_dims (raw_shape m i)) (data env i))] = Some (TFloat ds x) -> sized ds) by (intros ds x E; injection E as <- _; apply run_sized; apply (cp_sample _ _ _ Ci)).
      specialize (G HH). injection G as -> ->. split; reflexivity. }
    destruct V as (V1 & V2).
    assert (NN : Forall (fun n => 0 <= n) (raw_shape m o)) by (apply (cp_sample _ _ _ Co)).
    destruct (C64_activation_partial u (raw_shape m o) (data env i) PO NN) as (l & EL & OK); [rewrite V2; apply (cp_size _ _ _ Ci)|].
    assert (SZ : fst l = prod (run_dims (raw_shape m o))).
    { unfold create_activation in EL. destruct (instantiate_activation _ _ _) as [act|]; [|discriminate]. injection EL as <-. cbn [fst]. 
      destruct (sample_shape _ (cp_sample _ _ _ Co)) as (C & H0 & W & P1 & P2 & P3 & E1 & E2). rewrite E1, find_size4 by assumption. rewrite <- (prod_ones (4 - List.length (raw_shape m o))), E2. rewrite prod4. reflexivity. }
    destruct (snd l) as [f|] eqn:EF.
    2: { exfalso. specialize (OK (Out 1) (Out 0)). unfold imported_activation_c in OK. rewrite EF in OK.
         set (big := Z.max (prod (run_dims (raw_shape m o))) (zlen (data env i))).
         destruct (OK (fun b => match b with Out 1 => data env i | _ => repeat 0%R (Z.to_nat big) end)) as (m' & E & _); [|cbn; apply zlen_nonneg| |discriminate E].
         - constructor; [|constructor]. cbn. exists []. rewrite app_nil_r. reflexivity.
         - unfold zlen. rewrite repeat_length. lia. }
    assert (EI' : import_layer SixLoops m (mkONode op a [i] o) = Some ([i], mkLayer Rnum (KActivation Rnum (fst l)) f)).
    { rewrite EI, ER. cbn [bind]. rewrite EL. cbn [bind]. rewrite EF. reflexivity. }
    exists [i], (mkLayer Rnum (KActivation Rnum (fst l)) f). apply good_of; [exact EI'|intros z Hz; exact Hz|reflexivity| | |].
    - split.
      + cbn [lact]. destruct u as [| | | | |[al|]|]; cbn in EL; try (unfold create_activation in EL; cbn in EL; injection EL as <-; cbn in EF; injection EF as <-; left; exact I).
        * right. split; [apply Rnum_field|]. split; [apply Rnum_order|]. unfold create_activation in EL. cbn [instantiate_activation] in EL.
          destruct (nlt Rnum al (n0 Rnum)) eqn:EN; [discriminate|]. injection EL as <-. cbn in EF. injection EF as <-. cbn. exact EN.
        * right. split; [apply Rnum_field|]. split; [apply Rnum_order|]. unfold create_activation in EL. cbn [instantiate_activation] in EL.
          destruct (nlt Rnum (1 / 100)%R (n0 Rnum)) eqn:EN; [discriminate|]. injection EL as <-. cbn in EF. injection EF as <-. cbn. exact EN.
        * destruct PO as (lo & hi & -> & -> & HH). right. split; [apply Rnum_field|]. split; [apply Rnum_order|]. unfold create_activation in EL. cbn in EL.
          destruct (Rltb hi lo) eqn:EN; [discriminate|]. injection EL as <-. cbn in EF. injection EF as <-. cbn. exact EN.
      + cbn [lkind map]. split; [rewrite (cp_size _ _ _ Ci), SZ, V2; reflexivity|]. rewrite SZ. pose proof (zlen_nonneg (data env o)). rewrite (cp_size _ _ _ Co) in H0. exact H0.
    - cbn [lkind out_size n_output]. rewrite SZ, (cp_size _ _ _ Co). reflexivity.
    - intros ninf q. exists 0, (prod (run_dims (raw_shape m o))). cbn [n_output]. rewrite V1. specialize (OK (Out 1) (Out 0)). unfold imported_activation_c in OK. rewrite EF in OK. exact OK.
  Qed.

  Lemma cp i : produced m i -> computed m env i. Proof. apply (rf_produced _ _ F). Qed.
  Lemma env_out o out op a ins : produced m o -> env o = Some out -> op_holds op a ins out -> op_holds op a ins (TFloat (run_dims (raw_shape m o)) (data env o)).
  Proof. intros P E H. rewrite (cp_env _ _ _ (cp _ P)) in E. injection E as <-. exact H. Qed.

  Lemma activation_node_layer op a i o : covered m (mkONode op a [i] o) -> In op ["Relu"; "Tanh"; "Sigmoid"; "Exp"; "Log"; "LeakyRelu"]%string ->
    produced m i -> produced m o -> (op = "LeakyRelu"%string -> forall v, float_attr "alpha" (Some (1 / 100)%R) a = Some v -> (0 <= v)%R) ->
    op_holds op a [env i] (TFloat (run_dims (raw_shape m o)) (data env o)) ->
    exists rec L, good m env (mkONode op a [i] o) rec L.
  Proof.
    intros _ I Pi Po PA H.
    assert (HN : node_holds op a [env i] (TFloat (run_dims (raw_shape m o)) (data env o))).
    { cbn [In] in I. inversion H; subst; try assumption; exfalso; repeat (destruct I as [I|I]; [subst; discriminate|]); exact I. }
    clear H. cbn [In] in I. destruct I as [<-|[<-|[<-|[<-|[<-|[<-|[]]]]]]].
    1-5: (eapply unary_layer; [reflexivity|reflexivity|reflexivity|exact I|reflexivity|assumption|assumption|exact HN]).
    assert (HA : exists al, opt_float "alpha" a = Some al /\ unary_of "LeakyRelu" a = Some (OLeakyRelu (Some (match al with Some v => v | None => (1 / 100)%R end))) /\
                 float_attr "alpha" (Some (1 / 100)%R) a = Some (match al with Some v => v | None => (1 / 100)%R end)).
    { unfold opt_float. inversion HN; subst; try discriminate.
      - match goal with G : unary_of _ _ = Some _ |- _ => cbn in G; unfold float_attr in *; destruct (attr_of "alpha" a) as [[]|] eqn:E; cbn in G; try discriminate end.
        + exists (Some v). split; [reflexivity|]. split; [cbn; unfold float_attr; rewrite E; reflexivity|reflexivity].
        + exists None. split; [reflexivity|]. split; [cbn; unfold float_attr; rewrite E; reflexivity|reflexivity].
      - match goal with G : _ \/ _ |- _ => destruct G as [(G & _)|(G & _)]; discriminate end. }
    destruct HA as (al & E1 & E2 & E3). specialize (PA eq_refl _ E3).
    assert (ER : read_activation "LeakyRelu" a = Some (NLeakyRelu al)) by (unfold read_activation; cbn; rewrite E1; reflexivity).
    eapply (unary_layer _ _ _ _ _ (OLeakyRelu al)); [exact E2| |exact ER| |reflexivity|assumption|assumption|exact HN].
    - intros x. destruct al; reflexivity.
    - destruct al; [exact PA|exact I].
  Qed.

  (** Attributes: what ONNX reads is what the importer reads. *)
  Lemma ints_read nm def a l : ints_attr nm (Some def) a = Some l -> exists o, opt_ints nm a = Some o /\ or_default o def = l.
  Proof. unfold ints_attr, opt_ints. destruct (attr_of nm a) as [[]|]; intros E; try discriminate; injection E as <-; eexists; split; reflexivity. Qed.
  Lemma int_read nm def a v : int_attr nm (Some def) a = Some v -> exists o, opt_int nm a = Some o /\ or_default o def = v.
  Proof. unfold int_attr, opt_int. destruct (attr_of nm a) as [[]|]; intros E; try discriminate; injection E as <-; eexists; split; reflexivity. Qed.
  Lemma float_read nm def a v : float_attr nm (Some def) a = Some v -> exists o, opt_float nm a = Some o /\ or_default o def = v.
  Proof. unfold float_attr, opt_float. destruct (attr_of nm a) as [[]|]; intros E; try discriminate; injection E as <-; eexists; split; reflexivity. Qed.
  Lemma auto_read a v : auto_of a = Some v -> read_auto a = Some v.
  Proof. unfold auto_of, read_auto, str_attr, opt_str. destruct (attr_of "auto_pad" a) as [[]|]; intros E; try discriminate; exact E. Qed.
  Lemma window_read a g k s d auto p : attr_of "kernel_shape" a = Some (AInts k) -> ints_attr "strides" (Some [1; 1]) a = Some s -> ints_attr "dilations" (Some [1; 1]) a = Some d ->
    auto_of a = Some auto -> ints_attr "pads" (Some [0; 0; 0; 0]) a = Some p ->
    exists n, read_window g a = Some n /\ w_kernel n = Some k /\ or_default (w_strides n) [1; 1] = s /\ or_default (w_dilations n) [1; 1] = d /\ w_auto n = auto /\ explicit_pads n = p /\ w_group n = g.
  Proof.
    intros Ek Es Ed Ea Ep. destruct (ints_read _ _ _ _ Es) as (os & Es1 & Es2). destruct (ints_read _ _ _ _ Ed) as (od & Ed1 & Ed2). destruct (ints_read _ _ _ _ Ep) as (op & Ep1 & Ep2).
    unfold read_window. unfold opt_ints at 1. rewrite Ek. cbn [bind]. rewrite Es1. cbn [bind]. rewrite Ed1. cbn [bind]. rewrite (auto_read _ _ Ea). cbn [bind]. rewrite Ep1. cbn [bind].
    eexists. split; [reflexivity|]. cbn [w_kernel w_strides w_dilations w_auto w_group]. split; [reflexivity|]. split; [exact Es2|]. split; [exact Ed2|]. split; [reflexivity|]. split; [exact Ep2|reflexivity].
  Qed.

  Lemma dims4_pos raw C H W : one_sample raw -> run_dims raw = [1; C; H; W] -> 0 < C /\ 0 < H /\ 0 < W.
  Proof. intros (_ & P & _) E. apply run_dims_pos in P. rewrite E in P. inversion P as [|? ? _ P1]; subst. inversion P1 as [|? ? A P2]; subst. inversion P2 as [|? ? B P3]; subst. inversion P3 as [|? ? D _]; subst. auto. Qed.
  Lemma shape4' raw C H W : one_sample raw -> run_dims raw = [1; C; H; W] -> get_shape raw = [1; C; H; W].
  Proof. intros O E. rewrite (get_shape_eq raw) by apply O. assert (L : List.length raw = 4%nat) by (rewrite <- run_dims_length, E; reflexivity). rewrite L, E. reflexivity. Qed.
  Lemma one_slot (c : conv_impl) : slots 1 = [Out 1]. Proof. reflexivity. Qed.

  Lemma conv_fields (n : window_node) raw_in raw_out C H W M OH OW kh kw (w : list Z) (bias : option (list R)) c bs :
    get_shape raw_in = [1; C; H; W] -> get_shape raw_out = [1; M; OH; OW] -> w_kernel n = Some [kh; kw] ->
    create_conv 0%R n raw_in raw_out [M; C; kh; kw] bias = Some (c, bs) ->
    Conv.ic c = C /\ Conv.ih c = H /\ Conv.iw c = W /\ Conv.nf c = M /\ Conv.oh c = OH /\ Conv.ow c = OW /\ Conv.kh c = kh /\ Conv.kw c = kw /\
    bs = or_default bias (repeat 0%R (Z.to_nat M)) /\ zlen bs = M.
  Proof.
    intros E1 E2 Ek E. unfold create_conv in E. rewrite E1, E2, Ek in E. cbn [dims3 bind] in E.
    destruct (import_padding n) as [p|]; [|discriminate]. cbn [bind] in E. destruct (rdl (or_default (w_strides n) [1; 1]) 0) as [s|]; [|discriminate]. cbn [bind] in E.
    change (rdl [kh; kw] 0) with (Some kh) in E. change (rdl [kh; kw] 1) with (Some kw) in E. cbn [bind] in E.
    destruct (rdl (or_default (w_dilations n) [1]) 0) as [d|]; [|discriminate]. cbn [bind] in E. change (rdl [M; C; kh; kw] 0) with (Some M) in E. cbn [bind] in E.
    match type of E with (let (_, _) := ?t in _) = _ => destruct t as (((pr & pl) & pb) & pt) end.
    match type of E with (if ?b then _ else _) = _ => destruct b eqn:EB; [|discriminate] end. injection E as <- <-. cbn.
    apply andb_true_iff in EB. destruct EB as (EB & _). apply andb_true_iff in EB. destruct EB as (EB & _). apply andb_true_iff in EB. destruct EB as (_ & EB). apply Z.eqb_eq in EB.
    repeat (split; [reflexivity|]). exact EB.
  Qed.
  Lemma conv_layer a kh kw s d auto i wn rest o : attr_of "kernel_shape" a = Some (AInts [kh; kw]) -> int_attr "group" (Some 1) a = Some 1 ->
    ints_attr "strides" (Some [1; 1]) a = Some [s; s] -> ints_attr "dilations" (Some [1; 1]) a = Some [d; d] ->
    auto_of a = Some auto -> auto = NotSet \/ auto = AutoValid \/ d = 1 -> 1 <= kh -> 1 <= kw -> 0 < s ->
    produced m i -> (List.length rest <= 1)%nat -> (forall nm, In nm (wn :: rest) -> exists t, stored m nm t) -> produced m o ->
    op_holds "Conv" a (map env (i :: wn :: rest)) (TFloat (run_dims (raw_shape m o)) (data env o)) ->
    exists rec L, good m env (mkONode "Conv" a (i :: wn :: rest) o) rec L.
  Proof.
    intros Ak Ag As Ad Aa HA Hkh Hkw Hs Pi Lr ST Po H. pose proof (cp _ Pi) as Ci. pose proof (cp _ Po) as Co.
    inversion H; subst; no_reduction; clear H; try discriminate.
    { match goal with G : ~ In _ _ |- _ => exfalso; apply G; cbn; tauto end. }
    match goal with G : window _ _ _ _ _ _ _ _ _ _ _ _ |- _ => destruct G as (Wk & Ws & Wd & auto' & top & lft & bot & rgt & Wa & Wp & -> & ->) end.
    rewrite Ws in As. injection As as -> ->. rewrite Wd in Ad. injection Ad as -> ->. rewrite Wa in Aa. injection Aa as ->.
    unfold ints_attr in Wk. rewrite Ak in Wk. injection Wk as -> ->.
    match goal with G : int_attr "group" _ _ = Some g |- _ => rewrite Ag in G; injection G as <- end.
    repeat match goal with G : Some _ = env _ |- _ => symmetry in G end.
    match goal with G : env i = Some _ |- _ => destruct (computed_is _ _ _ _ _ Ci G) as (DI & DX) end.
    match goal with G : env wn = Some (TFloat _ ?w0) |- _ => pose proof (floats_stored m env _ _ _ F (ST _ (or_introl eq_refl)) G) as EW; pose proof (rf_sized _ _ F _ _ G) as (_ & ZW); clear G end.
    rewrite Z.div_1_r in EW, ZW. 
    match goal with G : [1; _; _; _] = run_dims _ |- _ => rename G into DO end. symmetry in DO.
    match goal with G : convolved _ _ _ _ _ _ _ _ _ _ _ _ _ _ _ _ _ _ _ _ |- _ => rename G into HC end.
    destruct (int_read _ _ _ _ Ag) as (og & Eg1 & Eg2).
    destruct (window_read a og _ _ _ _ _ Ak Ws Wd Wa Wp) as (n & RW & Nk & Ns & Nd & Na & Np & Ng).
    (* the bias *)
    assert (HB : exists bias, (match rest with [] => Some None | [bn] => B <- floats m bn ;; Some (Some (snd B)) | _ => Some None end) = Some bias /\
                   or_default bias (repeat 0%R (Z.to_nat M)) = b /\ (forall bs, bias = Some bs -> zlen bs = M)).
    { destruct rest as [|bn [|? ?]]; [| |cbn in Lr; lia].
      - exists None. split; [reflexivity|]. match goal with G : bias_is _ _ _ |- _ => inversion G; subst end. split; [reflexivity|discriminate].
      - match goal with G : bias_is _ _ _ |- _ => inversion G as [rest' HR|bb HR]; subst end.
        + exfalso. destruct HR as [HR|HR]; cbn [map] in HR; [discriminate|]. injection HR as HR. destruct (ST bn) as (t & HT); [right; left; reflexivity|]. rewrite (proj2 (rf_stored _ _ F _ _ HT)) in HR. discriminate.
        + symmetry in HR. rewrite (floats_stored m env bn _ _ F (ST bn (or_intror (or_introl eq_refl))) HR). cbn [bind snd]. exists (Some b). split; [reflexivity|]. split; [reflexivity|].
          intros bs E. injection E as <-. destruct (rf_sized _ _ F _ _ HR) as (_ & Z0). cbn [prod] in Z0. lia. }
    destruct HB as (bias & EB & DB & ZB).
    set (ph := onnx_pads auto top bot H0 kh0 s d) in *. set (pw := onnx_pads auto lft rgt W kw0 s d) in *.
    destruct (C58_conv Rnum KerasOps.zero_product_R n (raw_shape m i) (raw_shape m o) M C H0 W kh0 kw0 s d top lft bot rgt (onnx_length H0 ph kh0 s d) (onnx_length W pw kw0 s d) bias w x) as (c & bs & EL & OK); try assumption.
    all: try solve [apply (cp_sample _ _ _ Ci) | apply (cp_sample _ _ _ Co) | rewrite Ng; exact Eg2 | rewrite Na; exact HA | rewrite Na; reflexivity
                   | etransitivity; [exact ZW|cbn [prod]; ring] | rewrite <- DX; etransitivity; [exact (cp_size _ _ _ Ci)|rewrite DI; apply prod4]].
    destruct (dims4_pos _ _ _ _ (cp_sample _ _ _ Ci) DI) as (PC & PH & PW). destruct (dims4_pos _ _ _ _ (cp_sample _ _ _ Co) DO) as (PM & POH & POW).
    assert (EI : import_layer SixLoops m (mkONode "Conv" a (i :: wn :: rest) o) = Some ([i], plain (KConv Rnum SixLoops c w bs))).
    { unfold import_layer. cbn [n_op n_attrs n_inputs n_output]. cbn [String.eqb Ascii.eqb Bool.eqb]. rewrite Eg1. cbn [bind]. rewrite RW. cbn [bind]. rewrite EW. cbn [bind fst snd]. rewrite EB. cbn [bind].
      assert (EL1 : @create_conv R 0%R n (raw_shape m i) (raw_shape m o) [M; C; kh0; kw0] bias = Some (c, bs)) by exact EL. rewrite EL1. reflexivity. }
    destruct (conv_fields n _ _ _ _ _ _ _ _ _ _ [] bias c bs (shape4' _ _ _ _ (cp_sample _ _ _ Ci) DI) (shape4' _ _ _ _ (cp_sample _ _ _ Co) DO) Nk EL) as (F1 & F2 & F3 & F4 & F5 & F6 & F7 & F8 & F9 & F10).
    exists [i], (plain (KConv Rnum SixLoops c w bs)). apply good_of; [exact EI|intros z [<-|[]]; left; reflexivity|reflexivity| | |].
    - split; [apply lin_supported|]. cbn [lkind plain map]. rewrite (cp_size _ _ _ Ci), DI, prod4. unfold conv_supported. rewrite F1, F2, F3, F4, F5, F6, F7, F8. split; [reflexivity|].
      repeat (split; [lia|]). split; [etransitivity; [exact ZW|cbn [prod]; ring]|]. split; [exact F10|]. exact KerasOps.zero_product_R.
    - cbn [lkind plain out_size n_output]. rewrite F4, F5, F6, (cp_size _ _ _ Co), DO, prod4. reflexivity.
    - intros ninf q. destruct (OK (Out 1) (Out 0) (fun v => v) ltac:(discriminate) ltac:(discriminate)) as (y & HY & LY). cbn [n_output map List.length]. change (slots 1) with [Out 1].
      rewrite map_id in LY. rewrite DX. assert (EY : data env o = y).
      { destruct HC as (Z1 & HC). rewrite Na in HY. fold ph pw in HY. assert (HY1 : convolved Rnum 1 M C H0 W kh0 kw0 s s d d (fst ph) (fst pw) (onnx_length H0 ph kh0 s d) (onnx_length W pw kw0 s d) w b x y) by (rewrite <- DB; exact HY). clear HY. destruct HY1 as (Z2 & HY).
        refine (at3_ext 0%R M _ _ _ _ _ _ _ Z1 Z2 _); [lia|lia|lia|]. intros c0 i0 j0 Hc Hi Hj. exact (eq_trans (HC c0 i0 j0 Hc Hi Hj) (eq_sym (HY c0 i0 j0 Hc Hi Hj))). }
      rewrite EY. eexists _, _. exact LY.
  Qed.
End Ops.
