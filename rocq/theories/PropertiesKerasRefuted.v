(** * C69, continued: Keras models that are rejected or computed wrongly. *)
From Coq Require Import String.
From Coq Require Import ZArith List Lia Bool Reals Lra QArith Permutation.
Import ListNotations.
From Verif Require Import CMem Tensor Num RealInst Padding Conv Pooling Pad Reduce Movement MovementProofs Linear Graph GraphSpec LayerKinds Net Import ImportOtherProofs PropertiesImport PropertiesGraph PropertiesNet.
From Verif Require Activation Broadcast.
From Verif Require Import KerasSpec Keras KerasProofs KerasOps KerasOps2 KerasOps3 KerasModel KerasRun PropertiesKeras.
Open Scope string_scope.
Open Scope list_scope.
Open Scope Z_scope.

(** Layers on which the importer raises, whatever the model: Dense and Conv2D
    with use_bias=False, BatchNormalization with scale=False or center=False,
    Concatenate with a negative axis (the default is -1). *)
Theorem C69_rejected_layers_refuted : forall (impl : conv_impl) (m : kmodel) (n : node), In n (k_nodes m) ->
  (exists units kernel a, n_op n = Dense units kernel None a) \/
  (exists fmt filters kh kw sh sw p dh dw groups kernel a, n_op n = Conv2D fmt filters kh kw sh sw p dh dw groups kernel None a) \/
  (exists axis gamma beta mean var eps, n_op n = BatchNormalization axis gamma beta mean var eps /\ (gamma = None \/ beta = None)) \/
  (exists axis, n_op n = Concatenate axis /\ axis < 0) ->
  load_model impl m = None.
Proof.
  intros impl m n Hn HO.
  assert (HN : forall ins out, import_op impl (n_op n) ins out = None).
  { intros ins out. unfold import_op. destruct HO as [(u & k & a & ->)|[(fmt & fi & kh & kw & s1 & s2 & p & d1 & d2 & gr & k & a & ->)|[(axis & ga & be & me & va & ep & -> & HO)|(axis & -> & HO)]]]; cbn [skipped import_layer].
    - destruct ins as [|ds [|? ?]]; reflexivity.
    - destruct ins as [|ds [|? ?]]; reflexivity.
    - destruct ins as [|ds [|? ?]]; try reflexivity. unfold import_bn. destruct HO as [-> | ->]; [reflexivity|]. destruct ga; reflexivity.
    - unfold import_concat. cbv zeta. destruct (chw out) as [[[OC OH] OW]|]; [|reflexivity]. cbn [bind]. destruct (all_some (map chw ins)); [|reflexivity]. cbn [bind].
      unfold concat_axis. destruct (Z.eqb_spec axis 3); [lia|]. destruct (Z.leb_spec 1 (axis + 1)); [lia|]. rewrite !andb_false_r. reflexivity. }
  assert (HI : forall ns env, In n ns -> import_nodes impl env ns = None).
  { induction ns as [|k ns IH]; intros env H; [destruct H|]. destruct H as [<- | H]; cbn [import_nodes].
    - destruct (all_some (map (shape_of env) (n_inputs k))); [|reflexivity]. cbn [bind]. destruct (out_dims (n_op k) _); [|reflexivity]. cbn [bind]. rewrite HN. reflexivity.
    - destruct (all_some (map (shape_of env) (n_inputs k))); [|reflexivity]. cbn [bind]. destruct (out_dims (n_op k) _); [|reflexivity]. cbn [bind].
      destruct (import_op impl (n_op k) _ _); [|reflexivity]. cbn [bind]. rewrite IH by exact H. reflexivity. }
  unfold load_model. rewrite (HI _ _ Hn). destruct (if k_sequential m then _ else _); reflexivity.
Qed.
Print Assumptions C69_rejected_layers_refuted.

(** A valid Keras model: it has a run on every input of its shape. *)
Definition keras_accepts (m : kmodel) : Prop := well_formed m /\ exists sh, shaped m sh /\ positive_dims (k_shape m).
Lemma keras_runs m x : keras_accepts m -> exists env, runs m x env.
Proof. intros (WF & sh & SH & _). exact (C69_runs_exist m sh x WF SH). Qed.
(** Models of one layer. *)
Definition one_layer (shape : list Z) (o : op) : kmodel := mkKModel true "in" shape [mkNode "l" o ["in"]].
Lemma one_layer_ok shape o out : positive_dims shape -> out_dims o [shape] = Some out -> keras_accepts (one_layer shape o).
Proof.
  intros PI HO. split.
  - constructor.
    + constructor; [cbn; intuition discriminate|]. constructor; [intros []|constructor].
    + intros [|b before] n after E; [injection E as <- _|injection E as _ E; destruct before; discriminate]. split; [discriminate|]. intros nm H. exact H.
    + intros nm [<- | [<- | []]] NE; [|exfalso; apply NE; reflexivity]. eexists. split; [left; reflexivity|left; reflexivity].
    + intros _ [|b before] n after E; [injection E as <- _|injection E as _ E; destruct before; discriminate]. reflexivity.
    + discriminate.
  - exists (fun nm => if String.eqb nm "in" then shape else out). split; [|exact PI]. split; [reflexivity|]. intros n [<- | []]. exact HO.
Qed.
Lemma one_layer_run shape o x : runs (one_layer shape o) x (fun nm => if String.eqb nm "in" then mkT shape x else mkT (match out_dims o [shape] with Some d => d | None => [] end) (result o [mkT shape x] (match out_dims o [shape] with Some d => d | None => [] end))) \/ out_dims o [shape] = None.
Proof.
  destruct (out_dims o [shape]) as [d|] eqn:E; [left|right; reflexivity]. split; [reflexivity|]. intros n [<- | []]. cbn [n_op n_inputs n_name map]. unfold apply. cbn [map dims String.eqb Ascii.eqb Bool.eqb]. rewrite E. reflexivity.
Qed.

(** Valid models of one layer on which the importer raises:
    - a convolution with groups;
    - a dilated convolution with padding "same";
    - pooling with different strides;
    - ZeroPadding2D with data_format="channels_first";
    - BatchNormalization and Flatten of a vector;
    - Dense on an image (Keras applies it to every pixel);
    - a convolution with softmax on an image. *)
Theorem C69_valid_models_rejected_refuted : forall o shape,
  In (o, shape)
   [(Conv2D channels_last 2 1 1 1 1 valid 1 1 2 [1; 1]%R (Some [0; 0]%R) linear, [2; 2; 2]);
    (Conv2D channels_last 1 3 3 1 1 same 2 2 1 (repeat 1%R 9) (Some [0%R]) linear, [5; 5; 1]);
    (MaxPooling2D channels_last 2 2 2 1 valid, [4; 4; 1]);
    (ZeroPadding2D channels_first 1 1 1 1, [1; 2; 2]);
    (BatchNormalization (-1) (Some [1; 1]%R) (Some [0; 0]%R) [0; 0]%R [1; 1]%R 0%R, [2]);
    (Flatten channels_last, [3]);
    (Dense 2 [1; 1]%R (Some [0; 0]%R) linear, [2; 2; 1]);
    (Conv2D channels_last 2 1 1 1 1 valid 1 1 1 [1; 1]%R (Some [0; 0]%R) softmax, [2; 2; 1])] ->
  keras_accepts (one_layer shape o) /\ load_model SixLoops (one_layer shape o) = None.
Proof.
  intros o shape H. cbn [In] in H.
  repeat (destruct H as [H|H]; [injection H as <- <-; split; [eapply one_layer_ok; [repeat constructor|reflexivity]|reflexivity]|]). destruct H.
Qed.
Print Assumptions C69_valid_models_rejected_refuted.

(** The sum of two vectors is rejected. *)
Theorem C69_vector_merge_refuted :
  let m := mkKModel false "in" [2] [mkNode "d" (Dense 2 [1; 0; 0; 1]%R (Some [0; 0]%R) relu) ["in"]; mkNode "add" (Merge Add) ["in"; "d"]] in
  keras_accepts m /\ load_model SixLoops m = None.
Proof.
  cbv zeta. split; [|reflexivity]. split.
  - constructor.
    + repeat (constructor; [cbn; intuition discriminate|]). constructor.
    + intros before n after E. do 2 (destruct before as [|? before]; [injection E as <- _; split; [discriminate|intros nm H; cbn in H; cbn; intuition]|injection E as <- E]). destruct before; discriminate.
    + intros nm Hnm NE. destruct Hnm as [<-|[<-|[<-|[]]]].
      * eexists. split; [left; reflexivity|left; reflexivity].
      * eexists. split; [right; left; reflexivity|right; left; reflexivity].
      * exfalso. apply NE. reflexivity.
    + discriminate.
    + discriminate.
  - exists (fun _ => [2]). split; [|repeat constructor]. split; [reflexivity|]. intros n [<- | [<- | []]]; reflexivity.
Qed.
Print Assumptions C69_vector_merge_refuted.

(** Accepted models whose value is not Keras's. *)
Definition wrong_value (m : kmodel) (x : list R) : Prop :=
  keras_accepts m /\ zlen x = size_of (k_shape m) /\
  exists md s, load_model SixLoops m = Some md /\ tri_topo (md_graph Rnum md) = Some s /\
  forall ninf q env val, runs m x env -> evaluates (documented_net Rnum ninf q md s) x val ->
    md_post Rnum md s (val (last (order s) O)) <> vals (env (k_output m)).
Lemma wrong_intro shape o x out l :
  positive_dims shape -> out_dims o [shape] = Some out -> is_softmax o = false -> skipped o = false -> zlen x = size_of shape ->
  import_layer SixLoops o [shape] out = Some l ->
  (forall ninf q, (match out_channels Rnum (lkind Rnum l) with Some (C, H, W) => to_last 0%R C H W | None => fun v => v end)
     (meaning Rnum ninf q l [layout shape x]) <> result o [mkT shape x] out) -> wrong_value (one_layer shape o) x.
Proof.
  intros PI HO HS HK HX IL NE. split; [eapply one_layer_ok; eassumption|]. split; [exact HX|].
  assert (ELK : exists st, load_keras true 0 [link_node (mkNode "l" o ["in"])] = Some st /\ k_layers st = [0; 1]%nat /\ lprev (k_links st) 1%nat = [0%nat] /\ lprev (k_links st) 0%nat = [] /\
    exists s, tri_topo (keras_graph st) = Some s /\ order s = [0; 1]%nat).
  { unfold load_keras. cbn [skipn keras_steps]. unfold keras_step. cbn [link_node kskip ksoftmax n_op]. rewrite HK, HS. cbn. eexists. split; [reflexivity|]. cbn. repeat (split; [reflexivity|]). eexists. split; reflexivity. }
  destruct ELK as (st & E1 & EK & P1 & P0 & s & ES & EO).
  exists (mkModel Rnum (keras_graph st) (fun n => nth n [import_input shape; l] (import_input shape)) true), s. split; [|split; [exact ES|]].
  { unfold load_model, one_layer. cbn [k_sequential k_nodes k_input k_shape map]. rewrite E1. cbn [bind import_nodes n_inputs n_op n_name map all_some shape_of String.eqb Ascii.eqb Bool.eqb]. rewrite HO. cbn [bind].
    unfold import_op. rewrite HK, IL, HS. reflexivity. }
  intros ninf q env val (R0 & RN) EV. specialize (RN _ (or_introl eq_refl)). cbn [n_op n_inputs n_name map] in RN. cbn [one_layer k_input k_shape] in R0. rewrite R0 in RN.
  unfold apply in RN. cbn [map dims] in RN. rewrite HO in RN. cbn [bind] in RN. injection RN as RN. unfold k_output. cbn [one_layer k_nodes last n_name]. rewrite <- RN. cbn [vals].
  assert (V0 : val 0%nat = layout shape x).
  { rewrite (EV 0%nat) by (cbn; rewrite EK; left; reflexivity). unfold documented_net, net_with. cbn [net_graph forward pre md_graph keras_graph previous_layer]. rewrite P0. cbn [md_layer nth]. unfold md_pre. rewrite EO. cbn [hd]. unfold lk. cbn [md_layer nth md_last].
    unfold import_input, layout. cbn [lkind]. destruct shape as [|a [|b [|c [|d r]]]]; reflexivity. }
  assert (V1 : val 1%nat = meaning Rnum ninf q l [layout shape x]).
  { rewrite (EV 1%nat) by (cbn; rewrite EK; right; left; reflexivity). unfold documented_net, net_with. cbn [net_graph forward pre md_graph keras_graph previous_layer]. rewrite P1. cbn [md_layer nth map]. rewrite V0. reflexivity. }
  rewrite EO. cbn [last]. unfold md_post. rewrite EO. cbn [last]. unfold lk. cbn [md_layer nth md_last]. rewrite V1. specialize (NE ninf q). destruct (out_channels Rnum (lkind Rnum l)) as [[[C H] W]|]; exact NE.
Qed.

(** - Flatten with data_format="channels_first": the elements are taken in the
      wrong order;
    - the second entry of pool_size is not read;
    - the axis of BatchNormalization is not read. *)
Ltac element k E := apply (f_equal (fun l => nth k l 0%R)) in E; lazy -[IZR Rmax Rplus Rmult Rminus Rdiv Ropp Rlt_dec sqrt Rinv exp] in E.
Theorem C69_channels_first_refuted : wrong_value (one_layer [2; 1; 2] (Flatten channels_first)) [0; 1; 2; 3]%R.
Proof.
  eapply wrong_intro; [repeat constructor|reflexivity|reflexivity|reflexivity|reflexivity|reflexivity|].
  intros ninf q E. element 1%nat E. lra.
Qed.
Print Assumptions C69_channels_first_refuted.
Theorem C69_pool_size_refuted : wrong_value (one_layer [1; 2; 1] (MaxPooling2D channels_last 1 2 1 1 same)) [0; 1]%R.
Proof.
  eapply wrong_intro; [repeat constructor|reflexivity|reflexivity|reflexivity|reflexivity|reflexivity|].
  intros ninf q E. element 0%nat E. unfold Rmax in E. destruct (Rle_dec 0 1); lra.
Qed.
Print Assumptions C69_pool_size_refuted.
Theorem C69_normalization_axis_refuted :
  wrong_value (one_layer [2; 1; 2] (BatchNormalization 1 (Some [1; 1]%R) (Some [0; 0]%R) [0; 1]%R [1; 1]%R 0%R)) [0; 0; 0; 0]%R.
Proof.
  eapply wrong_intro; [repeat constructor|reflexivity|reflexivity|reflexivity|reflexivity|reflexivity|].
  intros ninf q E. element 1%nat E. replace (1 + 0)%R with 1%R in E by lra. rewrite sqrt_1 in E. lra.
Qed.
Print Assumptions C69_normalization_axis_refuted.

(** A convolution with softmax whose result is a column of one channel: Keras's
    softmax is along the channels (all ones), the imported one along the rows. *)
Theorem C69_softmax_axis_refuted :
  wrong_value (one_layer [2; 1; 1] (Conv2D channels_last 1 1 1 1 1 valid 1 1 1 [1%R] (Some [0%R]) softmax)) [0; 0]%R.
Proof.
  split; [eapply one_layer_ok; [repeat constructor|reflexivity]|]. split; [reflexivity|]. eexists. eexists. split; [reflexivity|]. split; [reflexivity|].
  intros ninf q env val (R0 & RN) EV E. specialize (RN _ (or_introl eq_refl)). cbn [n_op n_inputs n_name map] in RN. cbn [one_layer k_input k_shape] in R0. rewrite R0 in RN.
  unfold apply in RN. cbn [map dims] in RN. cbn [out_dims] in RN. cbn -[result] in RN. injection RN as RN. unfold k_output in E. cbn [one_layer k_nodes last n_name] in E. rewrite <- RN in E. cbn [vals] in E.
  assert (V0 : val 0%nat = [0; 0]%R) by exact (EV 0%nat (or_introl eq_refl)).
  pose (l1 := match import_layer SixLoops (Conv2D channels_last 1 1 1 1 1 valid 1 1 1 [1%R] (Some [0%R]) softmax) [[2; 1; 1]] [2; 1; 1] with Some l => l | None => import_input [] end).
  assert (V1 : val 1%nat = meaning Rnum ninf q l1 [val 0%nat]) by exact (EV 1%nat (or_intror (or_introl eq_refl))).
  assert (V2 : val 2%nat = meaning Rnum ninf q (softmax_layer [2; 1; 1]) [val 1%nat]) by exact (EV 2%nat (or_intror (or_intror (or_introl eq_refl)))).
  assert (W1 : val 1%nat = [0; 0]%R).
  { rewrite V1, V0. lazy -[IZR Rplus Rmult]. f_equal; [lra|f_equal; lra]. }
  rewrite W1 in V2. rewrite (softmax_meaning ninf q 2) in V2 by (lia || reflexivity).
  assert (E0 : nth 0 (val 2%nat) 0%R = 1%R).
  { transitivity (nth 0 (result (Conv2D channels_last 1 1 1 1 1 valid 1 1 1 [1%R] (Some [0%R]) softmax) [mkT [2; 1; 1] [0; 0]%R] [2; 1; 1]) 0%R); [exact (f_equal (fun l => nth 0 l 0%R) E)|].
    lazy -[IZR Rplus Rmult Rdiv exp]. set (e := exp _). assert (0 < e)%R by apply exp_pos. field. lra. }
  rewrite V2 in E0. lazy -[IZR Rplus Rmult Rdiv exp] in E0. rewrite exp_0 in E0. lra.
Qed.
Print Assumptions C69_softmax_axis_refuted.
