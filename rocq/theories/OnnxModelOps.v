(** * What the layer made for an ONNX node computes (used by C72). *)
From Coq Require Import String.
From Coq Require Import ZArith List Lia Bool Reals Lra QArith.
Import ListNotations.
Open Scope list_scope.
Open Scope Z_scope.
From Verif Require Import CMem Tensor Num RealInst Graph Import LayerKinds LayerKindsProofs OnnxOps OnnxLinear OnnxWindow OnnxMisc.
From Verif Require Activation Broadcast Pooling Pad Movement Conv.
From Verif Require Import OnnxSpec OnnxOpsProofs OnnxWindowSpec OnnxLinearSpec OnnxMiscSpec ExportSpec ExportDet OnnxModelSpec OnnxModel.
From Verif Require Import PropertiesActivation PropertiesOnnxOps PropertiesOnnxReduce PropertiesOnnxWindow PropertiesOnnxElementwise PropertiesOnnxLinear PropertiesOnnxPad PropertiesOnnxActivation PropertiesOnnxBypass.

Ltac no_reduction := try (match goal with G : reduction_of (String _ _) = Some _ |- _ => discriminate G end).
(** ** Two contracts for the same code give the same result. *)
Definition slots (n : nat) : list bname := map Out (seq 1 n).
Lemma holds_same {V} (m : mem V) b x y : holds m b x -> holds m b y -> zlen x = zlen y -> x = y.
Proof.
  intros (r & E1) (r' & E2) L. rewrite E1 in E2. clear E1. unfold zlen in L. apply Nat2Z.inj in L. revert y L E2. induction x as [|a x IH]; intros [|b' y] L E; try discriminate; [reflexivity|].
  cbn [Datatypes.app] in E. injection E as -> E. f_equal. apply IH; [cbn in L; lia|exact E].
Qed.
Lemma combine_slots (xs : list (list R)) n : List.length xs = n -> forall big k,
  Forall (fun s => holds (fun b => match b with Out i => nth (i - k)%nat xs big | _ => big end) (fst s) (snd s)) (List.combine (map Out (seq k n)) xs).
Proof.
  intros L big k. subst n. assert (G : forall pre xs, Forall (fun s => holds (fun b => match b with Out i => nth (i - k)%nat (pre ++ xs) big | _ => big end) (fst s) (snd s))
    (List.combine (map Out (seq (k + List.length pre) (List.length xs))) xs)); [|apply (G [] xs) || (specialize (G [] xs); cbn [List.length] in G; rewrite Nat.add_0_r in G; exact G)].
  clear xs. intros pre xs. revert pre. induction xs as [|x xs IH]; intros pre; cbn [List.length seq map List.combine]; [constructor|]. constructor.
  - cbn [fst snd]. exists []. rewrite app_nil_r. replace (k + List.length pre - k)%nat with (List.length pre) by lia. rewrite app_nth2 by lia. rewrite Nat.sub_diag. reflexivity.
  - specialize (IH (pre ++ [x])). rewrite app_length in IH. cbn [List.length] in IH. replace (k + (List.length pre + 1))%nat with (S (k + List.length pre)) in IH by lia. rewrite <- app_assoc in IH. exact IH.
Qed.
Lemma slots_length n : List.length (slots n) = n. Proof. unfold slots. rewrite map_length, seq_length. reflexivity. Qed.
Lemma slots_not_temp n : Forall (fun b => b <> Temp) (slots n).
Proof. unfold slots. apply Forall_forall. intros b Hb. apply in_map_iff in Hb. destruct Hb as (i & <- & _). discriminate. Qed.
Definition simple (k : kind Rnum) : bool :=
  match k with KInput4 _ _ _ _ | KInput _ _ | KConstant _ _ | KFlatten _ _ _ _ _ => false | KConv _ SixLoops _ _ _ => true | KConv _ _ _ _ _ => false | _ => true end.
Lemma code_value ninf q l xs y T1 O1 : accepts Rnum l (map zlen xs) -> simple (lkind Rnum l) = true ->
  layer_ok (gen_code Rnum ninf q false l (slots (List.length xs)) (Out 0)) (List.combine (slots (List.length xs)) xs) (Out 0) T1 O1 y ->
  zlen y = out_size Rnum (lkind Rnum l) -> meaning Rnum ninf q l xs = y.
Proof.
  intros A S HY ZY. set (sum := fold_right Z.add 0 (map zlen xs)).
  assert (SUM : Forall (fun n => n <= sum) (map zlen xs)).
  { unfold sum. clear. induction xs as [|x xs IH]; cbn [map fold_right]; [constructor|]. pose proof (zlen_nonneg x). assert (0 <= fold_right Z.add 0 (map zlen xs)) by (clear; induction xs as [|x xs IH]; cbn [map fold_right]; [lia|pose proof (zlen_nonneg x); lia]).
    constructor; [lia|]. eapply Forall_impl; [|exact IH]. cbv beta. intros n Hn. lia. }
  assert (S0 : 0 <= sum) by (unfold sum; clear; induction xs as [|x xs IH]; cbn [map fold_right]; [lia|pose proof (zlen_nonneg x); lia]).
  set (big := Z.max (Z.max T1 O1) (Z.max (out_size Rnum (lkind Rnum l)) sum)).
  assert (PL : placed Rnum (lkind Rnum l) (slots (List.length xs)) (Out 0)).
  { unfold placed. destruct (lkind Rnum l); try exact I; try discriminate S. destruct impl; [exact I|discriminate|discriminate]. }
  assert (PT : forall p, md_patches Rnum (lkind Rnum l) = Some p -> p <= big).
  { intros p Hp. destruct (lkind Rnum l); try discriminate Hp. destruct impl; try discriminate Hp. discriminate S. }
  destruct (layer_code_ok Rnum ninf q false l (slots (List.length xs)) 0 xs big big A ltac:(apply slots_length) ltac:(apply slots_not_temp) PL ltac:(unfold big; lia)
    ltac:(eapply Forall_impl; [|exact SUM]; cbv beta; intros n Hn; unfold big; lia) ltac:(unfold big; lia) ltac:(unfold big; lia) PT) as (ZM & HM).
  set (m := fun b : bname => match b with Out i => nth (i - 1)%nat xs (repeat 0%R (Z.to_nat big)) | _ => repeat 0%R (Z.to_nat big) end).
  set (m0 := fun b : bname => match b with Out 0 => repeat 0%R (Z.to_nat big) | _ => m b end).
  assert (ZB : zlen (repeat 0%R (Z.to_nat big)) = big) by (unfold zlen; rewrite repeat_length; unfold big; lia).
  assert (HS : Forall (fun s => holds m0 (fst s) (snd s)) (List.combine (slots (List.length xs)) xs)).
  { pose proof (combine_slots xs _ eq_refl (repeat 0%R (Z.to_nat big)) 1) as G. unfold slots. rewrite Forall_forall in *. intros s Hs. specialize (G s Hs).
    assert (H0 : fst s <> Out 0). { destruct s as (b, x). apply in_combine_l in Hs. apply in_map_iff in Hs. destruct Hs as (i & <- & Hi). apply in_seq in Hi. intros H. injection H as H. lia. }
    unfold m0. destruct (fst s) as [[|i]|i| | |]; try exact G; congruence. }
  destruct (HY m0 HS ltac:(cbn; rewrite ZB; unfold big; lia) ltac:(cbn; rewrite ZB; unfold big; lia)) as (m1 & E1 & H1 & _).
  destruct (HM m0 HS ltac:(cbn; rewrite ZB; unfold big; lia) ltac:(cbn; rewrite ZB; unfold big; lia)) as (m2 & E2 & H2 & _).
  rewrite E1 in E2. injection E2 as <-. eapply holds_same; [exact H2|exact H1|]. rewrite ZM, ZY. reflexivity.
Qed.

(** ** Facts about a run, in the terms of the importer. *)
Definition data (env : string -> option tensor) (nm : string) : list R := match env nm with Some (TFloat _ x) => x | _ => [] end.
Record computed (m : source) (env : string -> option tensor) (nm : string) : Prop := {
  cp_init : initialiser m nm = None;
  cp_announced : announced m nm (raw_shape m nm);
  cp_sample : one_sample (raw_shape m nm);
  cp_env : env nm = Some (TFloat (run_dims (raw_shape m nm)) (data env nm));
  cp_size : zlen (data env nm) = prod (run_dims (raw_shape m nm)) }.
Record run_facts (m : source) (env : string -> option tensor) : Prop := {
  rf_produced : forall nm, produced m nm -> computed m env nm;
  rf_stored : forall nm t, stored m nm t -> initialiser m nm = Some t /\ env nm = Some t;
  rf_sized : forall nm t, env nm = Some t -> sized_tensor t }.
Record good (m : source) (env : string -> option tensor) (nd : node) (rec : list string) (L : layer Rnum) : Prop := {
  gd_import : import_layer SixLoops m nd = Some (rec, L);
  gd_rec : incl rec (n_inputs nd);
  gd_simple : simple (lkind Rnum L) = true;
  gd_accepts : accepts Rnum L (map zlen (map (data env) rec));
  gd_size : out_size Rnum (lkind Rnum L) = zlen (data env (n_output nd));
  gd_value : forall ninf q, meaning Rnum ninf q L (map (data env) rec) = data env (n_output nd) }.
Lemma good_of m env nd rec L : import_layer SixLoops m nd = Some (rec, L) -> incl rec (n_inputs nd) -> simple (lkind Rnum L) = true ->
  accepts Rnum L (map zlen (map (data env) rec)) -> out_size Rnum (lkind Rnum L) = zlen (data env (n_output nd)) ->
  (forall ninf q, exists T1 O1, layer_ok (gen_code Rnum ninf q false L (slots (List.length rec)) (Out 0))
    (List.combine (slots (List.length rec)) (map (data env) rec)) (Out 0) T1 O1 (data env (n_output nd))) ->
  good m env nd rec L.
Proof.
  intros E I S A Z C. constructor; try assumption. intros ninf q. destruct (C ninf q) as (T1 & O1 & HC).
  eapply (code_value ninf q L _ _ T1 O1); [exact A|exact S| |symmetry; exact Z]. rewrite map_length. exact HC.
Qed.
Lemma floats_stored m env nm ds x : run_facts m env -> (exists t, stored m nm t) -> env nm = Some (TFloat ds x) -> floats m nm = Some (ds, x).
Proof. intros F (t & H) E. destruct (rf_stored _ _ F _ _ H) as (I & E'). rewrite E' in E. injection E as ->. unfold floats. rewrite I. reflexivity. Qed.
Lemma integers_stored m env nm ds x : run_facts m env -> (exists t, stored m nm t) -> env nm = Some (TInt ds x) -> integers m nm = Some (ds, x).
Proof. intros F (t & H) E. destruct (rf_stored _ _ F _ _ H) as (I & E'). rewrite E' in E. injection E as ->. unfold integers. rewrite I. reflexivity. Qed.
Lemma computed_is m env nm ds x : computed m env nm -> env nm = Some (TFloat ds x) -> run_dims (raw_shape m nm) = ds /\ data env nm = x.
Proof. intros C E. rewrite (cp_env _ _ _ C) in E. injection E as -> ->. split; reflexivity. Qed.
Lemma linear_id (y : list R) : map (Activation.c_act Rnum (Activation.LinearAct : Activation.activation Rnum)) y = y.
Proof. apply map_id. Qed.
Lemma lin_supported : act_supported Rnum (Activation.LinearAct : Activation.activation Rnum).
Proof. left. exact I. Qed.
Lemma run_sized raw : one_sample raw -> sized (run_dims raw).
Proof. intros (_ & F & _). eapply Forall_impl; [|apply run_dims_pos; exact F]. cbv beta. intros; lia. Qed.
