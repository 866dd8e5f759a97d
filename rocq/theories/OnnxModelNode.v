(** * One covered node of an ONNX model: what the importer makes of it (used by C72). *)
From Coq Require Import String.
From Coq Require Import ZArith List Lia Bool Reals QArith.
Import ListNotations.
Open Scope list_scope.
Open Scope Z_scope.
From Verif Require Import CMem Tensor Num RealInst Graph Import ImportSpec LayerKinds OnnxOps OnnxLinear OnnxWindow OnnxMisc.
From Verif Require Activation Broadcast.
From Verif Require Import OnnxSpec OnnxOpsProofs OnnxWindowSpec OnnxMiscSpec ExportSpec OnnxModelSpec OnnxModel.
From Verif Require Import OnnxModelOps OnnxModelOps2 OnnxModelOps3 OnnxModelOps4 OnnxModelOps5 OnnxModelOps6 OnnxModelOps7.

(** The choice of the implementation only changes convolution layers. *)
Definition reimpl (impl : conv_impl) (L : layer Rnum) : layer Rnum :=
  match lkind Rnum L with KConv _ _ c w b => mkLayer Rnum (KConv Rnum impl c w b) (lact Rnum L) | _ => L end.
Ltac cases E := repeat (cbn [bind fst snd] in E;
  match type of E with
  | bind ?e _ = _ => destruct e; cbn [bind] in E; try discriminate E
  | match ?x with _ => _ end = _ => destruct x; try discriminate E
  | (if ?x then _ else _) = _ => destruct x; try discriminate E
  end).
Lemma import_reimpl impl m nd rec L : import_layer SixLoops m nd = Some (rec, L) -> import_layer impl m nd = Some (rec, reimpl impl L).
Proof.
  unfold import_layer. destruct (n_inputs nd) as [|i0 rest]; [discriminate|].
  repeat match goal with |- (if String.eqb ?op ?s then _ else _) = _ -> _ => destruct (String.eqb op s) end;
    intros E;
    repeat (cbn [bind fst snd] in *;
      match type of E with
      | bind ?e _ = _ => destruct e; cbn [bind] in E |- *; try discriminate E
      | context [match ?x with _ => _ end] => destruct x; try discriminate E
      end); try (injection E as <- <-; reflexivity).
Qed.
Lemma reimpl_size impl L : out_size Rnum (lkind Rnum (reimpl impl L)) = out_size Rnum (lkind Rnum L).
Proof. destruct L as (k & f). destruct k; reflexivity. Qed.
Lemma reimpl_meaning impl ninf q L xs : meaning Rnum ninf q (reimpl impl L) xs = meaning Rnum ninf q L xs.
Proof. destruct L as (k & f). destruct k; reflexivity. Qed.
Lemma reimpl_six L : simple (lkind Rnum L) = true -> reimpl SixLoops L = L.
Proof. destruct L as (k & f). destruct k; try reflexivity. destruct impl; [reflexivity|discriminate|discriminate]. Qed.
Definition ordinary (k : kind Rnum) : Prop :=
  match k with KInput4 _ _ _ _ | KInput _ _ | KConstant _ _ | KFlatten _ _ _ _ _ => False | _ => True end.
Lemma reimpl_ordinary impl L : simple (lkind Rnum L) = true -> ordinary (lkind Rnum (reimpl impl L)).
Proof. destruct L as (k & f). destruct k; try discriminate; try (intros _; exact I). Qed.

(** Which inputs are recorded. *)
Definition first_only : list string := ["Conv"; "Pad"; "Gather"; "GatherElements"; "Gemm"; "BatchNormalization"]%string.
Lemma recorded impl m nd rec L : import_layer impl m nd = Some (rec, L) -> exists i0 rest, n_inputs nd = i0 :: rest /\
  (rec = [i0] \/ rec = n_inputs nd /\ ~ In (n_op nd) first_only \/ rec = chars i0 /\ ~ In (n_op nd) first_only).
Proof.
  unfold import_layer. destruct (n_inputs nd) as [|i0 rest] eqn:EI; [discriminate|]. intros E. exists i0, rest. split; [reflexivity|]. revert E.
  repeat match goal with |- (if String.eqb ?op ?s then _ else _) = _ -> _ => destruct (String.eqb_spec op s) as [->|?] end;
    intros E;
    repeat (cbn [bind fst snd] in *;
      match type of E with
      | bind ?e _ = _ => destruct e; cbn [bind] in E |- *; try discriminate E
      | context [match ?x with _ => _ end] => destruct x; try discriminate E
      end); injection E as <- <-;
    first [left; reflexivity|right; left; split; [reflexivity|]; unfold first_only; cbn [In]; intuition (discriminate || congruence)
          |right; right; split; [reflexivity|]; unfold first_only; cbn [In]; intuition (discriminate || congruence)].
Qed.

Section Node.
  Variable m : source.
  Variable env : string -> option tensor.
  Hypothesis F : run_facts m env.
  Hypothesis E0 : env ""%string = None.
  Variable impl : conv_impl.
  Inductive node_ok (nd : node) : onnx_node * option (layer Rnum) -> Prop :=
  | ok_bypass i rest : In (n_op nd) ["Dropout"; "Unsqueeze"; "Reshape"; "Flatten"]%string -> n_inputs nd = i :: rest -> produced m i ->
      (forall nm, In nm rest -> ~ produced m nm) -> data env (n_output nd) = data env i -> node_ok nd (OBypass i (n_output nd), None)
  | ok_layer rec L : incl rec (n_inputs nd) -> (forall nm, In nm (n_inputs nd) -> produced m nm -> In nm rec) ->
      (forall nm, In nm rec -> produced m nm \/ exists ds x, stored m nm (TFloat ds x)) -> (exists nm, In nm rec /\ produced m nm) ->
      (NoDup (n_inputs nd) -> NoDup rec) -> ordinary (lkind Rnum L) -> out_size Rnum (lkind Rnum L) = zlen (data env (n_output nd)) ->
      (forall ninf q, meaning Rnum ninf q L (map (data env) rec) = data env (n_output nd)) ->
      (impl = SixLoops -> accepts Rnum L (map zlen (map (data env) rec))) ->
      node_ok nd (OLayer rec (n_output nd), Some L).
  Lemma stored_not_produced nm t : stored m nm t -> ~ produced m nm.
  Proof. intros S P. destruct (rf_stored _ _ F _ _ S) as (I & _). rewrite (cp_init _ _ _ (rf_produced _ _ F _ P)) in I. discriminate. Qed.

  Lemma good_node nd rec L : good m env nd rec L -> bypassed (n_op nd) = false -> (exists nm, In nm (n_inputs nd) /\ produced m nm) ->
    ((exists i rest, n_inputs nd = i :: rest /\ (In (n_op nd) first_only \/ rec = [i]) /\ produced m i /\ (forall nm, In nm rest -> exists t, stored m nm t)) \/ Forall (operand_ok m) (n_inputs nd) /\ (n_inputs nd <> [] -> rec = n_inputs nd \/ length (n_inputs nd) = 1%nat)) ->
    exists r, import_node impl m nd = Some r /\ node_ok nd r.
  Proof.
    intros G NB (p & Hp & Pp) CASES. exists (OLayer rec (n_output nd), Some (reimpl impl L)). split.
    - unfold import_node. rewrite NB, (import_reimpl impl _ _ _ _ (gd_import _ _ _ _ _ G)). reflexivity.
    - destruct (recorded _ _ _ _ _ (gd_import _ _ _ _ _ G)) as (i0 & rest0 & EI & HR).
      assert (X : (forall nm, In nm (n_inputs nd) -> produced m nm -> In nm rec) /\ (forall nm, In nm rec -> produced m nm \/ exists ds x, stored m nm (TFloat ds x)) /\ (NoDup (n_inputs nd) -> NoDup rec)).
      { destruct CASES as [(i & rest & EI' & FO & Pi & ST)|(FO & HL)].
        - rewrite EI in EI'. injection EI' as <- <-. assert (ER : rec = [i0]) by (destruct FO as [FO|FO]; [destruct HR as [->|[(_ & HR)|(_ & HR)]]; [reflexivity|contradiction|contradiction]|exact FO]). rewrite ER. split; [|split].
          + intros nm Hnm P. rewrite EI in Hnm. destruct Hnm as [<-|Hnm]; [left; reflexivity|]. destruct (ST _ Hnm) as (t & S). destruct (stored_not_produced _ _ S P).
          + intros nm [<-|[]]. left. exact Pi.
          + intros _. constructor; [intros []|constructor].
        - assert (ER : rec = n_inputs nd).
          { destruct (HL ltac:(rewrite EI; discriminate)) as [->|L1]; [reflexivity|]. rewrite EI in L1 |- *. destruct rest0; [|discriminate L1]. destruct HR as [->|[(-> & _)|(HR & _)]]; [reflexivity|exact EI|].
            pose proof (gd_rec _ _ _ _ _ G) as IR. rewrite HR, EI in IR. rewrite HR. rewrite EI in Hp. destruct Hp as [<-|[]].
            destruct i0 as [|c [|c' r]]; [exfalso|reflexivity|exfalso].
            - pose proof (cp_env _ _ _ (rf_produced _ _ F _ Pp)) as E. rewrite E0 in E. discriminate.
            - destruct (IR (String c EmptyString) (or_introl eq_refl)) as [E|[]]. discriminate E. }
          rewrite ER. split; [intros nm H _; exact H|]. split; [|intros H; exact H]. intros nm Hnm. rewrite Forall_forall in FO. destruct (FO _ Hnm) as [P|(ds & x & S & _)]; [left; exact P|right; exists ds, x; exact S]. }
      destruct X as (X1 & X2 & X3). constructor; try assumption.
      + exact (gd_rec _ _ _ _ _ G).
      + exists p. split; [exact (X1 _ Hp Pp)|exact Pp].
      + apply reimpl_ordinary. exact (gd_simple _ _ _ _ _ G).
      + rewrite reimpl_size. exact (gd_size _ _ _ _ _ G).
      + intros ninf q. rewrite reimpl_meaning. exact (gd_value _ _ _ _ _ G ninf q).
      + intros ->. rewrite reimpl_six by exact (gd_simple _ _ _ _ _ G). exact (gd_accepts _ _ _ _ _ G).
  Qed.
  Lemma all_recorded a op is o rec L : import_layer SixLoops m (mkONode op a is o) = Some (rec, L) ->
    In op ["Add"; "Sub"; "Mul"; "Div"; "Max"; "Min"; "Concat"; "MatMul"]%string -> rec = is.
  Proof.
    intros E I. unfold import_layer in E. cbn [n_op n_attrs n_inputs n_output] in E. destruct is as [|i0 rest]; [discriminate|].
    destruct I as [<-|[<-|[<-|[<-|[<-|[<-|[<-|[<-|[]]]]]]]]]; cbn [String.eqb Ascii.eqb Bool.eqb broadcast_kind reduction_of] in E;
    repeat (cbn [bind fst snd] in *;
      match type of E with
      | bind ?e _ = _ => destruct e; cbn [bind] in E |- *; try discriminate E
      | context [match ?x with _ => _ end] => destruct x; try discriminate E
      end); injection E as <- <-; reflexivity.
  Qed.
  Lemma covered_node nd : covered m nd -> (exists nm, In nm (n_inputs nd) /\ produced m nm) -> produced m (n_output nd) ->
    op_holds (n_op nd) (n_attrs nd) (map env (n_inputs nd)) (TFloat (run_dims (raw_shape m (n_output nd))) (data env (n_output nd))) ->
    exists r, import_node impl m nd = Some r /\ node_ok nd r.
  Proof.
    intros CV RD Po H. assert (OK : forall nm, produced m nm -> operand_ok m nm) by (intros nm P; left; exact P).
    inversion CV; subst; cbn [n_op n_attrs n_inputs n_output] in *.
    - destruct (activation_node_layer m env F op a i o CV) as (rec & L & G); try assumption; [cbn [In] in *; tauto|intros ->; cbn [In] in *; intuition discriminate|].
      apply (good_node _ _ _ G); cbn [n_op n_inputs]; [|exact RD|].
      + match goal with I : In op _ |- _ => destruct I as [<-|[<-|[<-|[<-|[<-|[]]]]]]; reflexivity end.
      + right. split; [constructor; [apply OK; assumption|constructor]|]. intros _. right. reflexivity.
    - destruct (activation_node_layer m env F "LeakyRelu" a i o CV) as (rec & L & G); try assumption; [cbn [In]; tauto|intros _; assumption|].
      apply (good_node _ _ _ G); cbn [n_op n_inputs]; [reflexivity|exact RD|]. right. split; [constructor; [apply OK; assumption|constructor]|]. intros _. right. reflexivity.
    - destruct (softmax_node m env F a i o k) as (rec & L & G); try assumption.
      apply (good_node _ _ _ G); cbn [n_op n_inputs]; [reflexivity|exact RD|]. right. split; [constructor; [apply OK; assumption|constructor]|]. intros _. right. reflexivity.
    - destruct (conv_layer m env F a kh kw s d auto i wn rest o) as (rec & L & G); try assumption.
      apply (good_node _ _ _ G); cbn [n_op n_inputs]; [reflexivity|exact RD|]. left. exists i, (wn :: rest). split; [reflexivity|]. split; [left; cbn [first_only In]; tauto|]. split; assumption.
    - destruct (pool_layer m env F op a k s auto t l b r i o) as (rec & L & G); try assumption.
      apply (good_node _ _ _ G); cbn [n_op n_inputs]; [|exact RD|].
      + match goal with I : op = _ \/ _ |- _ => destruct I as [->|(-> & _)]; reflexivity end.
      + right. split; [constructor; [apply OK; assumption|constructor]|]. intros _. right. reflexivity.
    - destruct (global_average_pool_layer m env F a i o) as (rec & L & G); try assumption.
      apply (good_node _ _ _ G); cbn [n_op n_inputs]; [reflexivity|exact RD|]. right. split; [constructor; [apply OK; assumption|constructor]|]. intros _. right. reflexivity.
    - destruct (batch_norm_layer m env F a i ps o) as (rec & L & G); try assumption.
      apply (good_node _ _ _ G); cbn [n_op n_inputs]; [reflexivity|exact RD|]. left. exists i, ps. split; [reflexivity|]. split; [left; cbn [first_only In]; tauto|]. split; assumption.
    - destruct (operands_layer m env F op a is o) as (rec & L & G); try assumption.
      assert (ER : rec = is) by (eapply all_recorded; [exact (gd_import _ _ _ _ _ G)|cbn [In] in *; tauto]).
      apply (good_node _ _ _ G); cbn [n_op n_inputs]; [|exact RD|].
      + match goal with I : In op _ |- _ => destruct I as [<-|[<-|[<-|[<-|[<-|[]]]]]]; reflexivity end.
      + right. split; [eapply Forall_impl; [exact OK|assumption]|]. intros _. left. exact ER.
    - destruct (add_layer m env F a is o) as (rec & L & G); try assumption.
      assert (ER : rec = is) by (eapply all_recorded; [exact (gd_import _ _ _ _ _ G)|cbn [In] in *; tauto]).
      apply (good_node _ _ _ G); cbn [n_op n_inputs]; [reflexivity|exact RD|]. right. split; [assumption|]. intros _. left. exact ER.
    - destruct (concat_layer m env F a k is o) as (rec & L & G); try assumption.
      assert (ER : rec = is) by (eapply all_recorded; [exact (gd_import _ _ _ _ _ G)|cbn [In] in *; tauto]).
      apply (good_node _ _ _ G); cbn [n_op n_inputs]; [reflexivity|exact RD|]. right. split; [eapply Forall_impl; [exact OK|assumption]|]. intros _. left. exact ER.
    - destruct (transpose_layer m env F a p1 p2 p3 i o) as (rec & L & G); try assumption.
      apply (good_node _ _ _ G); cbn [n_op n_inputs]; [reflexivity|exact RD|]. right. split; [constructor; [apply OK; assumption|constructor]|]. intros _. right. reflexivity.
    - assert (X : exists rec L, good m env (mkONode op a [i; inn] o) rec L).
      { match goal with I : op = _ \/ _ |- _ => destruct I as [->| ->] end; [eapply gather_layer|eapply gather_elements_layer]; eauto. }
      destruct X as (rec & L & G). apply (good_node _ _ _ G); cbn [n_op n_inputs]; [|exact RD|].
      + match goal with I : op = _ \/ _ |- _ => destruct I as [->| ->]; reflexivity end.
      + left. exists i, [inn]. split; [reflexivity|]. split; [left; match goal with I : op = _ \/ _ |- _ => destruct I as [->| ->] end; cbn [first_only In]; tauto|]. split; [assumption|]. intros nm [<-|[]]. assumption.
    - destruct (gemm_layer m env F a i wn bn b n o) as (rec & L & G); try assumption.
      apply (good_node _ _ _ G); cbn [n_op n_inputs]; [reflexivity|exact RD|]. left. exists i, [wn; bn]. split; [reflexivity|]. split; [left; cbn [first_only In]; tauto|]. split; [assumption|]. intros nm [<-|[<-|[]]]; [assumption|]. eexists. eassumption.
    - destruct (matmul_layer m env F a i j o) as (rec & L & G); try assumption.
      assert (ER : rec = [i; j]) by (eapply all_recorded; [exact (gd_import _ _ _ _ _ G)|cbn [In] in *; tauto]).
      apply (good_node _ _ _ G); cbn [n_op n_inputs]; [reflexivity|exact RD|]. right. split; [constructor; [assumption|constructor; [assumption|constructor]]|]. intros _. left. exact ER.
    - destruct (pad_layer m env F a mode i pn ds ps vn v o) as (rec & L & G); try assumption.
      apply (good_node _ _ _ G); cbn [n_op n_inputs]; [reflexivity|exact RD|]. left. exists i, [pn; vn]. split; [reflexivity|]. split; [left; cbn [first_only In]; tauto|]. split; [assumption|]. intros nm [<-|[<-|[]]]; eexists; eassumption.
    - destruct (tile_layer m env F a i rn ds reps o) as (L & G); try assumption.
      apply (good_node _ _ _ G); cbn [n_op n_inputs]; [reflexivity|exact RD|]. left. exists i, [rn]. split; [reflexivity|]. split; [right; reflexivity|]. split; [assumption|]. intros nm [<-|[]]. eexists. eassumption.
    - destruct (reduce_layer m env F op a k i rest axes n o) as (L & G); try assumption.
      apply (good_node _ _ _ G); cbn [n_op n_inputs]; [|exact RD|].
      + match goal with K : reduction_of op = Some k |- _ => pose proof (reductions _ _ K) as IO end. cbn [In] in IO. repeat (destruct IO as [<-|IO]; [reflexivity|]). destruct IO.
      + left. exists i, rest. split; [reflexivity|]. split; [right; reflexivity|]. split; [assumption|]. intros nm Hnm.
        match goal with HR : _ \/ exists _ _, _ |- _ => destruct HR as [(-> & _)|(an & ads & -> & SA)] end; [destruct Hnm|]. destruct Hnm as [<-|[]]. eexists. exact SA.
    - exists (OBypass i o, None). split.
      + unfold import_node. cbn [n_op n_inputs n_output]. match goal with I : In op _ |- _ => destruct I as [<-|[<-|[<-|[<-|[]]]]]; reflexivity end.
      + apply (ok_bypass (mkONode op a (i :: rest) o) i rest); cbn [n_op n_inputs n_output]; try assumption; [reflexivity| |].
        * intros nm Hnm P. match goal with I : forall nm, In nm rest -> _ |- _ => destruct (I _ Hnm) as [->|(t & S)] end; [|exact (stored_not_produced _ _ S P)].
          pose proof (cp_env _ _ _ (rf_produced _ _ F _ P)) as E. rewrite E0 in E. discriminate.
        * eapply reshape_keeps; eassumption.
  Qed.
End Node.
