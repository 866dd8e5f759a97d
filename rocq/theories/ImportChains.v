(** * Tensors that share a layer of an imported ONNX model (used by C72). *)
From Coq Require Import String.
From Coq Require Import List Arith Bool Lia.
Import ListNotations.
From Verif Require Import CMem Graph GraphSpec Import ImportSpec ImportProofs ImportOnnxProofs.
Open Scope list_scope.

Lemma layer_split_unique : forall b x a b' y a', b ++ x :: a = b' ++ y :: a' -> makes_layer x = true -> makes_layer y = true -> layers_in b = layers_in b' -> b = b' /\ x = y.
Proof.
  induction b as [|z b IH]; intros x a [|z' b'] y a' E X Y L; cbn [app] in E.
  - injection E as -> _. split; reflexivity.
  - injection E as <- _. unfold layers_in in L. cbn [filter] in L. rewrite X in L. discriminate.
  - injection E as -> _. unfold layers_in in L. cbn [filter] in L. rewrite Y in L. discriminate.
  - injection E as <- E. unfold layers_in in L. cbn [filter] in L. destruct (IH x a b' y a' E X Y) as (-> & ->); [|split; reflexivity]. unfold layers_in. destruct (makes_layer z); cbn [length] in L; lia.
Qed.
Lemma layer_split_exists : forall nds k, k < layers_in nds -> exists b x a, nds = b ++ x :: a /\ makes_layer x = true /\ layers_in b = k.
Proof.
  induction nds as [|z nds IH]; intros k H; [cbn in H; lia|]. unfold layers_in in H. cbn [filter] in H. destruct (makes_layer z) eqn:Z.
  - destruct k as [|k]; [exists [], z, nds; repeat split; exact Z|]. cbn [length] in H. destruct (IH k) as (b & x & a & -> & X & L); [unfold layers_in; lia|]. exists (z :: b), x, a. split; [reflexivity|]. split; [exact X|].
    unfold layers_in in *. cbn [filter]. rewrite Z. cbn [length]. lia.
  - destruct (IH k H) as (b & x & a & -> & X & L). exists (z :: b), x, a. split; [reflexivity|]. split; [exact X|]. unfold layers_in in *. cbn [filter]. rewrite Z. exact L.
Qed.

Section Chains.
  Variable M : onnx_model.
  Hypothesis IM : importable M.
  Definition step (a b : string) : Prop := In (OBypass a b) (o_nodes M).
  Inductive reach (a : string) : string -> Prop :=
  | reach_refl : reach a a
  | reach_step b c : reach a b -> step b c -> reach a c.
  Definition origin (k : nat) (a : string) : Prop :=
    (exists before after, o_inputs M = before ++ a :: after /\ k = length before) \/
    (exists before ins after, o_nodes M = before ++ OLayer ins a :: after /\ k = length (o_inputs M) + layers_in before).
  Lemma from_origin a k : output_of_layer M a k -> exists o, origin k o /\ reach o a.
  Proof.
    induction 1 as [b nm a E|b ins nm a E|b i nm a k E H IH].
    - exists nm. split; [left; eauto|constructor].
    - exists nm. split; [right; eauto|constructor].
    - destruct IH as (o & HO & R). exists o. split; [exact HO|]. eapply reach_step; [exact R|]. unfold step. rewrite E. apply in_elt.
  Qed.
  Lemma origin_output k o : origin k o -> output_of_layer M o k.
  Proof. intros [(b & a & E & ->)|(b & ins & a & E & ->)]; [eapply from_input; exact E|eapply from_node; exact E]. Qed.
  Lemma split_same_length {A} : forall (b : list A) x a b' y a', b ++ x :: a = b' ++ y :: a' -> length b = length b' -> x = y.
  Proof. induction b as [|z b IH]; intros x a [|z' b'] y a' E L; cbn in *; try lia; injection E as E0 E; [exact E0|]. eapply IH; [exact E|lia]. Qed.
  Lemma origin_unique k o o' : origin k o -> origin k o' -> o = o'.
  Proof.
    intros [(b & a & E & ->)|(b & ins & a & E & ->)] [(b' & a' & E' & K)|(b' & ins' & a' & E' & K)].
    - rewrite E in E'. eapply split_same_length; eassumption.
    - apply (f_equal (@length _)) in E. rewrite app_length in E. cbn [length] in E. lia.
    - apply (f_equal (@length _)) in E'. rewrite app_length in E'. cbn [length] in E'. lia.
    - rewrite E in E'. destruct (layer_split_unique _ _ _ _ _ _ E' eq_refl eq_refl ltac:(lia)) as (_ & X). injection X as _ X. exact X.
  Qed.
  Lemma step_unique a b c : step a b -> step a c -> b = c.
  Proof.
    intros H1 H2. destruct (in_split _ _ H1) as (b1 & a1 & E). unfold step in H2. rewrite E in H2. apply in_app_iff in H2. destruct H2 as [H2|[H2|H2]].
    - destruct (im_identity M IM b1 a b a1 (OBypass a c) E); [apply in_or_app; auto|left; reflexivity].
    - injection H2 as <-. reflexivity.
    - destruct (im_identity M IM b1 a b a1 (OBypass a c) E); [apply in_or_app; auto|left; reflexivity].
  Qed.
  Lemma reach_left a b : reach a b -> a = b \/ exists c, step a c /\ reach c b.
  Proof.
    induction 1 as [|b c R IH S]; [left; reflexivity|right]. destruct IH as [<-|(d & S' & R')]; [exists c; split; [exact S|constructor]|]. exists d. split; [exact S'|eapply reach_step; eassumption].
  Qed.
  Lemma comparable o a b : reach o a -> reach o b -> reach a b \/ reach b a.
  Proof.
    intros RA RB. induction RA as [|a' a RA IH S]; [left; exact RB|]. destruct IH as [R|R].
    - destruct (reach_left _ _ R) as [<-|(c & S' & R')]; [right; eapply reach_step; [constructor|exact S]|]. left. rewrite (step_unique _ _ _ S S'). exact R'.
    - right. eapply reach_step; eassumption.
  Qed.
  Lemma same_layer a b k : output_of_layer M a k -> output_of_layer M b k -> reach a b \/ reach b a.
  Proof.
    intros HA HB. destruct (from_origin _ _ HA) as (o & OA & RA). destruct (from_origin _ _ HB) as (o' & OB & RB). rewrite <- (origin_unique _ _ _ OA OB) in RB. exact (comparable _ _ _ RA RB).
  Qed.
  Lemma same_layer_equal a b k : output_of_layer M a k -> output_of_layer M b k -> (forall c, ~ step a c) -> (forall c, ~ step b c) -> a = b.
  Proof.
    intros HA HB NA NB. destruct (same_layer _ _ _ HA HB) as [R|R]; destruct (reach_left _ _ R) as [E|(c & S & _)]; try congruence; [destruct (NA _ S)|destruct (NB _ S)].
  Qed.
  Lemma reach_same {X} (D : string -> X) : (forall a b, step a b -> D b = D a) -> forall a b, reach a b -> D b = D a.
  Proof. intros H a b R. induction R as [|b c R IH S]; [reflexivity|]. rewrite (H _ _ S). exact IH. Qed.
  Lemma same_layer_same {X} (D : string -> X) : (forall a b, step a b -> D b = D a) -> forall a b k, output_of_layer M a k -> output_of_layer M b k -> D a = D b.
  Proof. intros H a b k HA HB. destruct (same_layer _ _ _ HA HB) as [R|R]; rewrite (reach_same D H _ _ R); reflexivity. Qed.
  Lemma below nm k : output_of_layer M nm k -> k < length (o_inputs M) + layers_in (o_nodes M).
  Proof.
    induction 1 as [b nm a E|b ins nm a E|b i nm a k E H IH]; [rewrite E, app_length; cbn; lia| |exact IH]. rewrite E, layers_in_app. change (OLayer ins nm :: a) with ([OLayer ins nm] ++ a). rewrite layers_in_app. cbn. lia.
  Qed.
  Lemma layer_origin k : k < layers_in (o_nodes M) -> exists before ins o after, o_nodes M = before ++ OLayer ins o :: after /\ layers_in before = k.
  Proof.
    intros H. destruct (layer_split_exists _ _ H) as (b & x & a & E & X & L). assert (Hx : In x (o_nodes M)) by (rewrite E; apply in_elt). pose proof (im_supported M IM x Hx) as S. destruct x; try discriminate X; try contradiction. exists b, inputs, output, a. split; assumption.
  Qed.
  Definition bypass_reads (a : string) (nd : onnx_node) : bool := match nd with OBypass i _ => String.eqb i a | _ => false end.
  Lemma step_dec a : (exists b, step a b) \/ (forall b, ~ step a b).
  Proof.
    destruct (existsb (bypass_reads a) (o_nodes M)) eqn:E.
    - apply existsb_exists in E. destruct E as (nd & Hn & B). destruct nd; try discriminate B. cbn in B. apply String.eqb_eq in B. subst. left. eexists. exact Hn.
    - right. intros b S. assert (X : existsb (bypass_reads a) (o_nodes M) = true) by (apply existsb_exists; exists (OBypass a b); split; [exact S|apply String.eqb_refl]). congruence.
  Qed.
  Lemma tip_from n : forall nm k b nd a, o_nodes M = b ++ nd :: a -> length a < n -> In nm (node_outputs nd) -> output_of_layer M nm k ->
    exists t, output_of_layer M t k /\ forall c, ~ step t c.
  Proof.
    induction n as [|n IH]; intros nm k b nd a E L HN HO; [lia|]. destruct (step_dec nm) as [(c & S)|NS]; [|exists nm; split; assumption].
    destruct (in_split _ _ S) as (b2 & a2 & E2). assert (HC : output_of_layer M c k) by (eapply from_identity; eassumption).
    destruct (im_ordered M IM _ _ _ nm E2 (or_introl eq_refl)) as [HI|[(p & Hp & Hnm & _)|(_ & _ & [])]].
    - destruct (input_not_output M IM nm b nd a HI E HN).
    - destruct (in_split _ _ Hp) as (b3 & a3 & E3). assert (E4 : o_nodes M = b3 ++ p :: (a3 ++ OBypass nm c :: a2)) by (rewrite E2, E3, <- app_assoc; reflexivity).
      destruct (output_split_unique M IM _ _ _ _ _ _ _ E E4 HN Hnm) as (-> & ->). assert (EA : a = a3 ++ OBypass nm c :: a2) by (rewrite E in E4; apply app_inv_head in E4; congruence).
      apply (IH c k b2 (OBypass nm c) a2 E2); [|left; reflexivity|exact HC]. rewrite EA, app_length in L. cbn [length] in L. lia.
  Qed.
  Lemma tip_exists nm k : output_of_layer M nm k -> exists t, output_of_layer M t k /\ forall c, ~ step t c.
  Proof.
    intros HO. destruct (step_dec nm) as [(c & S)|NS]; [|exists nm; split; assumption]. destruct (in_split _ _ S) as (b & a & E).
    apply (tip_from (Datatypes.S (length a)) c k b _ a E); [lia|left; reflexivity|]. eapply from_identity; eassumption.
  Qed.
End Chains.
