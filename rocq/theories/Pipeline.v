(** * The passes of the constructor together: generator/neural_network.py:145-202.
    The parser's layers are sorted (tri_topo), optimised when optimization is
    True (159-160, Pattern.v), and every layer is then replaced by the
    implementation selected for its type and for its idx after the optimisation
    (198-199, select_layers_implementation 325-355 and versioning,
    Versioning.v).  As in Variants.v, the implementations covered are those of
    Conv2D: 6loops, std_gemm_nn and indirect_gemm_nn. *)
From Coq Require Import String.
From Coq Require Import ZArith List Lia Bool QArith FunctionalExtensionality.
Import ListNotations.
Open Scope list_scope.
Open Scope Z_scope.
From Verif Require Import CMem Num Graph GraphSpec Net NetProofs LayerKinds Conv Versioning Variants VariantsProofs Pattern PatternProofs PatternProofs2 PatternProofs3 PatternProofs4 PropertiesNet.

Section Pipeline.
  Context (N : num).
  (** Every convolution built again with another implementation; the other
      attributes are copied (versioning.py:43-63). *)
  Definition reimplemented (ch : nat -> conv_impl) (st : pnet N) : pnet N :=
    mkPnet N (pn_layers N st) (pn_idx N st) (pn_prev N st) (pn_next N st) (pn_path N st) (pn_str N st)
      (fun o => implemented_by N (ch o) (pn_layer N st o)) (pn_dict N st) (pn_max N st) (pn_last N st).
  (** neural_network.py:198-199; None: a name that is not registered (KeyError)
      or not covered. *)
  Definition versioned (versions : requests) (st : pnet N) : option (pnet N) :=
    if forallb (fun o => match kind_of N st o with
                         | KConv _ _ _ _ _ => match variant_named (requested versions (pn_idx N st o)) with Some _ => true | None => false end
                         | _ => true
                         end) (pn_layers N st)
    then Some (reimplemented (fun o => match variant_named (requested versions (pn_idx N st o)) with Some v => v | None => SixLoops end) st)
    else None.
  (** Every remaining convolution gets an implementation that is applicable. *)
  Definition usable_after (versions : requests) (st : pnet N) : Prop :=
    forall o impl c w b, In o (pn_layers N st) -> kind_of N st o = KConv N impl c w b ->
    exists v, variant_named (requested versions (pn_idx N st o)) = Some v /\ applicable v c.

  (** ** Proofs. *)
  Lemma usable_versioned versions st : usable_after versions st ->
    exists ch, versioned versions st = Some (reimplemented ch st) /\
      forall o v c w b, In o (pn_layers N st) -> kind_of N st o = KConv N v c w b -> applicable (ch o) c.
  Proof.
    intros U. eexists. split.
    - unfold versioned. replace (forallb _ _) with true; [reflexivity|]. symmetry. apply forallb_forall. intros o Ho.
      destruct (kind_of N st o) eqn:E; try reflexivity. destruct (U o _ _ _ _ Ho E) as (v & -> & _). reflexivity.
    - intros o v c w b Ho E. cbn beta. destruct (U o _ _ _ _ Ho E) as (v' & -> & A). exact A.
  Qed.
  Lemma constant_same v l : is_constant_layer N (lkind N (implemented_by N v l)) = is_constant_layer N (lkind N l).
  Proof. destruct l as (k & f). destruct k; reflexivity. Qed.
  Lemma graph_same ch st : graph_of N (reimplemented ch st) = graph_of N st.
  Proof.
    unfold graph_of. cbn [reimplemented pn_layers pn_prev pn_next]. f_equal. apply functional_extensionality. intros o. unfold kind_of. cbn [reimplemented pn_layer]. apply constant_same.
  Qed.
  Lemma model_same ch st : model_of N (reimplemented ch st) = with_impl N ch (model_of N st).
  Proof. unfold model_of. rewrite graph_same. reflexivity. Qed.
  Lemma schedule_same ch st : schedule_of N (reimplemented ch st) = schedule_of N st.
  Proof. reflexivity. Qed.
  Context (ninf : T N) (q : Q -> T N) (Z0 : zero_product_law N) (MC : mul_comm_law N).
  Lemma pinv_reimplemented ch inp st : pinv N inp st -> (forall o v c w b, In o (pn_layers N st) -> kind_of N st o = KConv N v c w b -> applicable (ch o) c) ->
    pinv N inp (reimplemented ch st).
  Proof.
    intros [P1 P2 P3 P4 P5 P6] A. constructor; try assumption.
    - rewrite model_same. apply supported_variant; assumption.
    - rewrite graph_same. assumption.
  Qed.
  Lemma python_reimplemented ch st : python_supported N (model_of N st) -> python_supported N (model_of N (reimplemented ch st)).
  Proof.
    rewrite model_same. intros (H & HL). split.
    - intros n Hn. specialize (H n Hn). unfold with_impl. cbn [md_layer]. revert H. unfold implemented_by. destruct (md_layer N (model_of N st) n) as (k & f). destruct k; cbn [lkind]; exact (fun X => X).
    - intros E n Hn EX. specialize (HL E n Hn EX). unfold lk, with_impl in *. cbn [md_layer]. revert HL. unfold implemented_by. destruct (md_layer N (model_of N st) n) as (k & f). destruct k; cbn [lkind]; intros X; exact X.
  Qed.
End Pipeline.
