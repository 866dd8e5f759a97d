(** * Proofs for C73: the variants of the convolution in a network. *)
From Coq Require Import String.
From Coq Require Import ZArith List Lia Bool QArith.
Import ListNotations.
Open Scope list_scope.
Open Scope Z_scope.
From Verif Require Import CMem Num Graph GraphSpec Net NetProofs LayerKinds Conv Padding IndirectProofs Versioning Variants PropertiesNet.

Section Generic.
  Context (N : num) (ninf : T N) (q : Q -> T N).
  Variable md : model N.
  Variable ch : nat -> conv_impl.
  Hypothesis Z0 : zero_product_law N.
  Hypothesis MC : mul_comm_law N.
  Hypothesis OK : forall n v c w b, In n (dnn (md_graph N md)) -> lk N md n = KConv N v c w b -> applicable (ch n) c.
  Let md' := with_impl N ch md.
  Lemma implemented_meaning v l : meaning N ninf q (implemented_by N v l) = meaning N ninf q l.
  Proof. destruct l as (k & f). destruct k; reflexivity. Qed.
  Lemma implemented_size v l : out_size N (lkind N (implemented_by N v l)) = out_size N (lkind N l).
  Proof. destruct l as (k & f). destruct k; reflexivity. Qed.
  Lemma implemented_channels v l : out_channels N (lkind N (implemented_by N v l)) = out_channels N (lkind N l).
  Proof. destruct l as (k & f). destruct k; reflexivity. Qed.
  Lemma implemented_other v l : (forall v0 c w b, lkind N l <> KConv N v0 c w b) -> implemented_by N v l = l.
  Proof. destruct l as (k & f). destruct k; try reflexivity. intros H. exfalso. eapply H. reflexivity. Qed.
  Lemma md_size_same n : md_size N md' n = md_size N md n.
  Proof. unfold md_size, lk, md', with_impl. cbn [md_layer]. apply implemented_size. Qed.
  Lemma conv_ok v v' c w b : conv_supported N v c w b -> applicable v' c -> conv_supported N v' c w b.
  Proof.
    intros (A1 & A2 & A3 & A4 & A5 & A6 & A7 & A8 & A9 & A10 & _) H. unfold conv_supported. split; [exact A1|]. do 9 (split; [assumption|]).
    destruct v'; cbn [applicable] in H.
    - exact Z0.
    - split; [exact Z0|]. split; [exact MC|exact H].
    - destruct H as (D & (U1 & U2 & U3 & U4 & U5 & U6 & U7 & U8 & U9 & U10 & U11) & H). split; [exact MC|]. split; [exact D|]. split.
      + constructor; try assumption; unfold conv_output_size; [rewrite U10|rewrite U11]; f_equal; f_equal; lia.
      + destruct H as [H|(B1 & B2 & B3 & B4)]; [left; exact H|right; auto].
  Qed.
  Lemma kconv_lk n : (exists v c w b, lk N md n = KConv N v c w b /\ lk N md' n = KConv N (ch n) c w b /\ lact N (md_layer N md' n) = lact N (md_layer N md n)) \/
    md_layer N md' n = md_layer N md n.
  Proof.
    unfold lk, md', with_impl, implemented_by. cbn [md_layer]. destruct (lkind N (md_layer N md n)) eqn:E; try (right; reflexivity).
    left. rewrite ?E. cbn [lkind lact]. eauto 9.
  Qed.
  Lemma lk_same n (k : kind N) : (forall v c w b, k <> KConv N v c w b) -> (lk N md' n = k <-> lk N md n = k).
  Proof.
    intros H. destruct (kconv_lk n) as [(v & c & w & b & E1 & E2 & _)|E].
    - rewrite E1, E2. split; intros X; exfalso; eapply H; symmetry; exact X.
    - unfold lk. rewrite E. reflexivity.
  Qed.
  Lemma supported_variant inp : supported N md inp -> supported N md' inp.
  Proof.
    intros SP. destruct SP as [S1 S2 S3 S4 S5 S6 S7 S8 S9]. constructor; try assumption.
    - intros n Hn. change (md_graph N md') with (md_graph N md) in *. etransitivity; [exact (S4 n Hn)|]. split; intros (w & E); exists w; apply lk_same in E; try discriminate; try exact E.
    - destruct S7 as [(C & H & W & E & R)|(k & E)]; [left; exists C, H, W; split; [apply lk_same; [discriminate|exact E]|exact R]|right; exists k; apply lk_same; [discriminate|exact E]].
    - intros n Hn HP. change (md_graph N md') with (md_graph N md) in *. specialize (S8 n Hn HP).
      replace (map (md_size N md') (previous_layer (md_graph N md) n)) with (map (md_size N md) (previous_layer (md_graph N md) n)) by (apply map_ext; intros; symmetry; apply md_size_same).
      destruct (kconv_lk n) as [(v & c & w & b & E1 & E2 & E3)|E]; [|rewrite E; exact S8].
      unfold accepts in *. unfold lk in E1, E2. rewrite E1 in S8. rewrite E2, E3. destruct S8 as (A & B & CS). split; [exact A|]. split; [exact B|].
      eapply conv_ok; [exact CS|]. eapply OK; [exact Hn|exact E1].
    - intros n p cl C H W Hn E. apply lk_same in E; [|discriminate]. exact (S9 n p cl C H W Hn E).
  Qed.
  Lemma post_same s x : md_post N md' s x = md_post N md s x.
  Proof. unfold md_post, lk, md', with_impl. cbn [md_layer md_last]. rewrite implemented_channels. reflexivity. Qed.
  Lemma pre_same s x : md_pre N md' s x = md_pre N md s x.
  Proof.
    unfold md_pre. destruct (kconv_lk (hd O (order s))) as [(v & c & w & b & E1 & E2 & _)|E]; [rewrite E1, E2; reflexivity|].
    unfold lk. rewrite E. reflexivity.
  Qed.
  Lemma evaluates_same s x val : evaluates (documented_net N ninf q md' s) x val <-> evaluates (documented_net N ninf q md s) x val.
  Proof.
    unfold evaluates, documented_net, net_with. cbn [net_graph forward pre]. change (md_graph N md') with (md_graph N md).
    split; intros H n Hn; specialize (H n Hn).
    - rewrite pre_same in H. unfold md', with_impl in H. cbn [md_layer] in H. rewrite implemented_meaning in H. exact H.
    - rewrite pre_same. unfold md', with_impl. cbn [md_layer]. rewrite implemented_meaning. exact H.
  Qed.
  (** The program with the chosen variants returns the documented value. *)
  Lemma variant_program inp s : supported N md inp -> tri_topo (md_graph N md) = Some s ->
    forall m, declared (python_net N ninf q md' s) s m ->
    exists val m', evaluates (documented_net N ninf q md s) (m NnIn) val /\ inference (python_net N ninf q md' s) s m = Some m' /\
      m' NnOut = md_post N md s (val (last (order s) O)).
  Proof.
    intros SP ES m D. destruct (C08_inference_computes_the_network N ninf q md' inp (supported_variant inp SP)) as (s' & ES' & HC).
    change (md_graph N md') with (md_graph N md) in ES'. rewrite ES in ES'. injection ES' as <-.
    destruct (HC m D) as (val & m' & EV & EI & EO & _). exists val, m'. split; [apply evaluates_same; exact EV|]. split; [exact EI|]. rewrite EO. apply post_same.
  Qed.
End Generic.
