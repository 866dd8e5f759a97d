(** * C69: an imported Keras model computes what Keras computes.
    KerasSpec.v says what Keras computes ([runs m x env]: [env] are the tensors
    of a run of [m] on the input [x]); Keras.v models the importer.
    - [well_formed] (KerasSpec.v): distinct names, layers read earlier layers,
      every layer but the last is read.
    - [shaped m sh] (KerasModel.v): [sh] are the dimensions Keras infers.
    - [all_importable m sh] (KerasModel.v, KerasOps.v): every layer has the
      options that the importer handles (the refuted theorems below show why).
    - [softmax_last_only] (KerasModel.v): no softmax but in the last layer. *)
From Coq Require Import String.
From Coq Require Import ZArith List Lia Bool Reals Lra QArith Permutation.
Import ListNotations.
From Verif Require Import CMem Tensor Num RealInst Padding Conv Pooling Pad Reduce Movement MovementProofs Linear Graph GraphSpec LayerKinds Net Import ImportOtherProofs PropertiesImport PropertiesGraph PropertiesNet.
From Verif Require Activation Broadcast.
From Verif Require Import KerasSpec Keras KerasProofs KerasOps KerasOps2 KerasOps3 KerasModel KerasRun.
Open Scope string_scope.
Open Scope list_scope.
Open Scope Z_scope.

(** The import succeeds, and the documented functions of the layers, applied in
    the order of the links, give Keras's output, in Keras's element order. *)
Theorem C69_import_keeps_the_function_partial : forall (impl : conv_impl) (ninf : R) (q : Q -> R) (m : kmodel) (sh : string -> list Z),
  well_formed m -> shaped m sh -> positive_dims (k_shape m) -> all_importable m sh ->
  (k_sequential m = false -> softmax_last_only (k_nodes m)) ->
  exists md s, load_model impl m = Some md /\ tri_topo (md_graph Rnum md) = Some s /\
  forall x env val, zlen x = size_of (k_shape m) -> runs m x env ->
    evaluates (documented_net Rnum ninf q md s) x val ->
    md_post Rnum md s (val (last (order s) O)) = vals (env (k_output m)).
Proof.
  intros impl ninf q m sh WF SH PI IM SM. destruct (load_ok m sh WF SH PI IM SM impl) as (md & EL & ID).
  destruct (scheduled m sh WF impl md ID) as (s & ES & H0 & HL & _). exists md, s. split; [exact EL|]. split; [exact ES|].
  intros x env val HX RU EV. eapply output_value; eassumption.
Qed.
Print Assumptions C69_import_keeps_the_function_partial.

(** The generated C program returns Keras's output.  Further conditions: no
    layer reads a tensor twice, the operand of a Flatten layer has no other
    reader, and the two paddings of a pooling layer are the same (C18). *)
Theorem C69_generated_program_partial : forall (ninf : R) (q : Q -> R) (m : kmodel) (sh : string -> list Z),
  well_formed m -> shaped m sh -> positive_dims (k_shape m) -> all_importable m sh ->
  (k_sequential m = false -> softmax_last_only (k_nodes m)) ->
  (forall n, In n (k_nodes m) -> generable (n_op n) (map sh (n_inputs n)) /\ NoDup (n_inputs n)) ->
  (forall n n' fmt nm, In n (k_nodes m) -> n_op n = Flatten fmt -> In nm (n_inputs n) -> In n' (k_nodes m) -> In nm (n_inputs n') -> n' = n) ->
  exists md s, load_model SixLoops m = Some md /\ tri_topo (md_graph Rnum md) = Some s /\
  forall (mem0 : mem R) env, declared (python_net Rnum ninf q md s) s mem0 -> runs m (mem0 NnIn) env ->
  exists mem1, inference (python_net Rnum ninf q md s) s mem0 = Some mem1 /\ mem1 NnOut = vals (env (k_output m)) /\
    (python_supported Rnum md -> compute_inference (python_net Rnum ninf q md s) s (mem0 NnIn) = Some (vals (env (k_output m)))).
Proof.
  intros ninf q m sh WF SH PI IM SM GN FL. destruct (load_ok m sh WF SH PI IM SM SixLoops) as (md & EL & ID).
  destruct (scheduled m sh WF SixLoops md ID) as (s & ES & H0 & HL & _). exists md, s. split; [exact EL|]. split; [exact ES|].
  intros mem0 env D RU.
  assert (SP : supported Rnum md 0).
  { eapply (keras_supported m sh WF SH PI IM SixLoops md ID ninf q); [reflexivity|intros n Hn; apply GN; exact Hn|intros n Hn; apply GN; exact Hn|exact FL]. }
  destruct (C08_inference_computes_the_network Rnum ninf q md 0 SP) as (s' & ES' & HC). rewrite ES in ES'. injection ES' as <-.
  destruct (HC mem0 D) as (val & mem1 & EV & EI & EO & EP). exists mem1. split; [exact EI|].
  assert (HX : zlen (mem0 NnIn) = size_of (k_shape m)).
  { etransitivity; [exact (D NnIn)|]. cbn [array_size]. rewrite H0. unfold python_net, net_with. cbn [size]. rewrite <- (loc_input m).
    rewrite (size_loc m sh WF SH PI IM SixLoops md ID ninf q) by (left; reflexivity). rewrite (proj1 SH). reflexivity. }
  assert (EQ : mem1 NnOut = vals (env (k_output m))).
  { rewrite EO. eapply (output_value m sh WF SH PI IM SixLoops md ID ninf q); eassumption. }
  split; [exact EQ|]. intros PS. rewrite (EP PS), EQ. reflexivity.
Qed.
Print Assumptions C69_generated_program_partial.

(** Keras computes a run for every input. *)
Definition next_tensor (env : string -> tensor) (n : node) (nm : string) : tensor :=
  if String.eqb nm (n_name n) then match apply (n_op n) (map env (n_inputs n)) with Some t => t | None => env nm end else env nm.
Theorem C69_runs_exist : forall m sh x, well_formed m -> shaped m sh -> exists env, runs m x env.
Proof.
  intros m sh x WF SH. exists (fold_left next_tensor (k_nodes m) (fun _ => mkT (k_shape m) x)).
  assert (G : forall before after, k_nodes m = before ++ after -> let e := fold_left next_tensor before (fun _ => mkT (k_shape m) x) in
    e (k_input m) = mkT (k_shape m) x /\ (forall nm, In nm (k_input m :: map n_name before) -> dims (e nm) = sh nm) /\
    (forall n, In n before -> apply (n_op n) (map e (n_inputs n)) = Some (e (n_name n)))).
  { intros before. induction before as [|n before IH] using rev_ind; intros after E; cbv zeta.
    - split; [reflexivity|]. split; [|intros n []]. intros nm [<-|[]]. cbn. symmetry. apply SH.
    - rewrite <- app_assoc in E. destruct (IH _ E) as (H0 & HD & HA). cbn [app] in E. rewrite fold_left_app. cbn [fold_left].
      set (e := fold_left next_tensor before (fun _ => mkT (k_shape m) x)) in *. destruct (names_split m _ _ _ WF E) as (NI & _). pose proof (wf_order _ WF _ _ _ E) as (_ & INC).
      assert (K : forall nm, In nm (k_input m :: map n_name before) -> next_tensor e n nm = e nm).
      { intros nm Hnm. unfold next_tensor. destruct (String.eqb_spec nm (n_name n)) as [->|]; [contradiction|reflexivity]. }
      assert (KM : forall nms, incl nms (k_input m :: map n_name before) -> map (next_tensor e n) nms = map e nms) by (intros nms HI; apply map_ext_in; intros nm Hnm; apply K; apply HI; exact Hnm).
      assert (Hn : In n (k_nodes m)) by (rewrite E; apply in_or_app; right; left; reflexivity).
      assert (AP : apply (n_op n) (map e (n_inputs n)) = Some (next_tensor e n (n_name n)) /\ dims (next_tensor e n (n_name n)) = sh (n_name n)).
      { unfold next_tensor. rewrite String.eqb_refl. unfold apply. assert (ED : map dims (map e (n_inputs n)) = map sh (n_inputs n)) by (rewrite map_map; apply map_ext_in; intros nm Hnm; apply HD; apply INC; exact Hnm).
        rewrite ED, (proj2 SH n Hn). cbn [bind]. split; reflexivity. }
      split; [rewrite K by (left; reflexivity); exact H0|]. split.
      + intros nm Hnm. rewrite map_app, app_comm_cons in Hnm. apply in_app_or in Hnm. destruct Hnm as [Hnm|[<-|[]]]; [rewrite K by exact Hnm; apply HD; exact Hnm|apply AP].
      + intros k Hk. apply in_app_or in Hk. destruct Hk as [Hk|[<-|[]]].
        * destruct (in_split _ _ Hk) as (b & a & EB). assert (E1 : k_nodes m = b ++ k :: (a ++ n :: after)) by (rewrite E, EB, <- app_assoc; reflexivity).
          rewrite KM, K by (first [right; apply in_map; exact Hk|intros nm Hnm; apply (proj2 (wf_order _ WF _ _ _ E1)) in Hnm; destruct Hnm as [Hnm|Hnm]; [left; exact Hnm|right; rewrite EB, map_app; apply in_or_app; left; exact Hnm]]).
          apply HA. exact Hk.
        * rewrite KM by exact INC. apply AP. }
  destruct (G (k_nodes m) [] ltac:(rewrite app_nil_r; reflexivity)) as (H0 & _ & HA). split; assumption.
Qed.
Print Assumptions C69_runs_exist.

(** ** Example: a functional model with a residual connection. *)
Definition ex69 : kmodel := mkKModel false "in" [4; 4; 1] [
  mkNode "c1" (Conv2D channels_last 2 3 3 1 1 same 1 1 1 (repeat 1%R 18) (Some [1; 2]%R) relu) ["in"];
  mkNode "c2" (Conv2D channels_last 2 1 1 1 1 valid 1 1 1 (repeat 2%R 4) (Some [0; 0]%R) linear) ["c1"];
  mkNode "bn" (BatchNormalization (-1) (Some [1; 1]%R) (Some [0; 0]%R) [0; 0]%R [1; 1]%R 0%R) ["c2"];
  mkNode "add" (Merge Add) ["c1"; "bn"];
  mkNode "max" (MaxPooling2D channels_last 2 2 2 2 valid) ["add"];
  mkNode "avg" (AveragePooling2D channels_last 3 3 2 2 same) ["bn"];
  mkNode "cat" (Concatenate 3) ["max"; "avg"];
  mkNode "fl" (Flatten channels_last) ["cat"];
  mkNode "d" (Dense 3 (repeat 1%R 48) (Some [1; 2; 3]%R) softmax) ["fl"]].
Definition ex69_sh (nm : string) : list Z :=
  if String.eqb nm "in" then [4; 4; 1] else if String.eqb nm "max" then [2; 2; 2] else if String.eqb nm "avg" then [2; 2; 2]
  else if String.eqb nm "cat" then [2; 2; 4] else if String.eqb nm "fl" then [16] else if String.eqb nm "d" then [3] else [4; 4; 2].
Example C69_example :
  well_formed ex69 /\ shaped ex69 ex69_sh /\ positive_dims (k_shape ex69) /\ all_importable ex69 ex69_sh /\ softmax_last_only (k_nodes ex69) /\
  (forall n, In n (k_nodes ex69) -> generable (n_op n) (map ex69_sh (n_inputs n)) /\ NoDup (n_inputs n)) /\
  (forall n n' fmt nm, In n (k_nodes ex69) -> n_op n = Flatten fmt -> In nm (n_inputs n) -> In n' (k_nodes ex69) -> In nm (n_inputs n') -> n' = n).
Proof.
  assert (ND : forall a b : string, a <> b -> NoDup [a; b]).
  { intros a b H. constructor; [intros [E|[]]; congruence|]. constructor; [intros []|constructor]. }
  assert (N1 : forall a : string, NoDup [a]) by (intros a; constructor; [intros []|constructor]).
  split; [|split; [|split; [|split; [|split; [|split]]]]].
  - constructor.
    + repeat (constructor; [cbn; intuition discriminate|]). constructor.
    + intros before n after E. do 9 (destruct before as [|? before]; [injection E as <- _; split; [discriminate|intros nm H; cbn in H; cbn; intuition]|injection E as <- E]). destruct before; discriminate.
    + intros nm Hnm NE. cbn in Hnm. unfold k_output in NE. cbn in NE.
      assert (R : exists k n, nth_error (k_nodes ex69) k = Some n /\ In nm (n_inputs n)).
      { destruct Hnm as [<-|[<-|[<-|[<-|[<-|[<-|[<-|[<-|[<-|[<-|[]]]]]]]]]]]; [exists 0%nat|exists 1%nat|exists 2%nat|exists 3%nat|exists 4%nat|exists 6%nat|exists 6%nat|exists 7%nat|exists 8%nat|congruence];
          (eexists; split; [reflexivity|cbn; auto]). }
      destruct R as (k & n & HN & HI). exists n. split; [eapply nth_error_In; exact HN|exact HI].
    + discriminate.
    + discriminate.
  - split; [reflexivity|]. intros n Hn. cbn in Hn. intuition; subst; reflexivity.
  - repeat constructor.
  - intros n Hn. cbn in Hn. destruct Hn as [<-|[<-|[<-|[<-|[<-|[<-|[<-|[<-|[<-|[]]]]]]]]]]; cbn [n_op n_inputs map importable].
    + split; [reflexivity|]. split; [reflexivity|]. split; [reflexivity|]. split; [reflexivity|]. split; [auto|]. split; [lia|]. split; [exists [1; 2]%R; auto|]. split; [exists 4, 4, 1; auto|discriminate].
    + split; [reflexivity|]. split; [reflexivity|]. split; [reflexivity|]. split; [reflexivity|]. split; [auto|]. split; [lia|]. split; [exists [0; 0]%R; auto|]. split; [exists 4, 4, 2; auto|discriminate].
    + split; [auto|]. exists 4, 4, 2, [1; 1]%R, [0; 0]%R. repeat split.
    + repeat constructor.
    + repeat (split; [reflexivity|]). exists 4, 4, 2. reflexivity.
    + repeat (split; [reflexivity|]). exists 4, 4, 2. reflexivity.
    + split; [lia|]. split; [repeat constructor|]. cbn. lia.
    + split; [reflexivity|]. exists 2, 2, 4. reflexivity.
    + split; [lia|]. split; [exists [1; 2; 3]%R; auto|]. exists 16. auto.
  - cbn. auto 10.
  - intros n Hn. cbn in Hn. destruct Hn as [<-|[<-|[<-|[<-|[<-|[<-|[<-|[<-|[<-|[]]]]]]]]]]; (split; [|]); cbn [n_op n_inputs map generable]; try exact I; try reflexivity; try apply N1; try (apply ND; discriminate).
  - intros n n' fmt nm Hn HO Hnm Hn' Hnm'. cbn in Hn, Hn'. intuition; subst; try discriminate HO; cbn in Hnm, Hnm'; intuition; subst; try discriminate; reflexivity.
Qed.
