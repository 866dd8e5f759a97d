(** * Property C79: the command acetone_generate. *)
From Coq Require Import String Ascii.
From Coq Require Import ZArith List Lia Bool.
Import ListNotations.
From Verif Require Import Versioning Driver PropertiesVersioning Cli.
Open Scope list_scope.
Open Scope Z_scope.

(** ** Specification: command lines. *)
(** The names of the options, as the help message shows them. *)
Inductive called : opt -> string -> Prop :=
| n_help : called Help "--help" | n_model : called Model "--model" | n_function : called Function "--function" | n_output : called Output "--output"
| n_size : called DatasetSize "--dataset-size" | n_dataset : called Dataset "--dataset" | n_normalize : called Normalize "--normalize"
| n_conv : called Conv "--conv" | n_optimization : called Optimization "--optimization" | n_target : called Target "--target"
| n_page : called PageSize "--target_page_size" | n_bin : called BinDataset "--bin_dataset" | n_verbose : called Verbose "--verbose".
(** An option is named by its name or by a beginning of it that no other option shares. *)
Definition names (w : string) (o : opt) : Prop :=
  called o w \/ (2 < String.length w)%nat /\ (exists f, called o f /\ prefix w f = true) /\ forall o' f, called o' f -> prefix w f = true -> o' = o.
(** A value that does not begin with a dash. *)
Definition plain (v : string) : Prop := match v with EmptyString => True | String c _ => c <> "-"%char end.
Inductive written : opt * string -> list string -> Prop :=
| Separate o w v : o <> Help -> o <> Normalize -> names w o -> plain v -> written (o, v) [w; v]
| Joined o w v : o <> Help -> o <> Normalize -> names w o -> written (o, v) [(w ++ String "="%char v)%string]
| Alone w : names w Normalize -> written (Normalize, EmptyString) [w].
(** The value of an option: the last one given. *)
Definition chosen (o : opt) (l : list (opt * string)) (v : string) : Prop :=
  exists before after, l = before ++ (o, v) :: after /\ ~ In o (map fst after).
Definition absent (o : opt) (l : list (opt * string)) : Prop := ~ In o (map fst l).
Record described (int_of : string -> option Z) (l : list (opt * string)) (s : settings) : Prop := {
  d_model : chosen Model l (st_model s);
  d_function : chosen Function l (st_function s);
  d_output : chosen Output l (st_output s);
  d_samples : exists v, chosen DatasetSize l v /\ int_of v = Some (st_samples s);
  d_dataset : match st_dataset s with Some v => chosen Dataset l v | None => absent Dataset l end;
  d_normalize : st_normalize s = true <-> In Normalize (map fst l);
  d_conv : chosen Conv l (st_conv s) \/ absent Conv l /\ st_conv s = "std_gemm_nn"%string;
  d_target : chosen Target l (st_target s) \/ absent Target l /\ st_target s = "generic"%string;
  d_page : (exists v, chosen PageSize l v /\ int_of v = Some (st_page s)) \/ absent PageSize l /\ st_page s = 4096;
  d_optimization : st_optimization s = true <-> exists v, chosen Optimization l v /\ v <> EmptyString;
  d_bin : st_bin s = true <-> exists v, chosen BinDataset l v /\ v <> EmptyString;
  d_verbose : st_verbose s = true <-> exists v, chosen Verbose l v /\ v <> EmptyString;
  d_hex : st_hex s = true;
  d_first : st_first s = true
}.
(** The four options that must be given, and the two that are integers. *)
Definition complete (l : list (opt * string)) : Prop := forall o, In o [Model; Function; Output; DatasetSize] -> In o (map fst l).
Definition numbers (int_of : string -> option Z) (l : list (opt * string)) : Prop :=
  forall o v, In (o, v) l -> o = DatasetSize \/ o = PageSize -> exists n, int_of v = Some n.

(** ** Proofs. *)
Lemma in_options o : In o options.
Proof. destruct o; cbn; tauto. Qed.
Lemma called_flag o f : called o f <-> f = flag o.
Proof. split; [intros []; reflexivity|intros ->; destruct o; constructor]. Qed.
Lemma flag_inj a b : flag a = flag b -> a = b.
Proof. destruct a, b; intros H; try reflexivity; discriminate H. Qed.
Lemma opt_eqb_spec a b : reflect (a = b) (opt_eqb a b).
Proof. unfold opt_eqb. destruct (String.eqb_spec (flag a) (flag b)) as [E|E]; constructor; [apply flag_inj; exact E|intros ->; apply E; reflexivity]. Qed.
Lemma find_flag o : find (fun o' => String.eqb (flag o') (flag o)) options = Some o.
Proof. destruct o; reflexivity. Qed.
Lemma exact_flag o : exact (flag o) = Some o.
Proof. destruct o; reflexivity. Qed.
Lemma prefix_cons a s t : prefix (String a s) t = true -> exists t', t = String a t' /\ prefix s t' = true.
Proof. destruct t as [|b t]; cbn; [discriminate|]. destruct (ascii_dec a b) as [->|]; [|discriminate]. intros H. exists t. auto. Qed.
Lemma prefix_refl s : prefix s s = true.
Proof. induction s as [|c s IH]; [reflexivity|]. cbn. destruct (ascii_dec c c); [exact IH|contradiction]. Qed.
(** Names begin with two dashes and a letter, and have no '='. *)
Lemma prefix_no_equal w t : prefix w t = true -> split_equal t = None -> split_equal w = None.
Proof.
  revert t. induction w as [|c w IH]; intros t H E; [reflexivity|]. apply prefix_cons in H. destruct H as (t' & -> & H). cbn [split_equal] in *.
  destruct (Ascii.eqb c "="%char); [discriminate|]. destruct (split_equal t') as [[]|] eqn:ET; [discriminate|]. rewrite (IH t' H ET). reflexivity.
Qed.
Lemma names_flag w o : names w o -> w = flag o \/ (2 < String.length w)%nat /\ prefix w (flag o) = true /\ forall o', prefix w (flag o') = true -> o' = o.
Proof.
  intros [H|(L & (f & HF & HP) & U)]; [left; apply called_flag; exact H|]. right. apply called_flag in HF. subst f.
  split; [exact L|]. split; [exact HP|]. intros o' H'. apply (U o' (flag o')); [apply called_flag; reflexivity|exact H'].
Qed.
Lemma names_of_flag w o : w = flag o \/ (2 < String.length w)%nat /\ prefix w (flag o) = true /\ (forall o', prefix w (flag o') = true -> o' = o) -> names w o.
Proof.
  intros [H|(L & HP & U)]; [left; apply called_flag; exact H|]. right. split; [exact L|]. split; [exists (flag o); split; [apply called_flag; reflexivity|exact HP]|].
  intros o' f HF H'. apply called_flag in HF. subst f. apply U. exact H'.
Qed.
Lemma names_prefix w o : names w o -> prefix w (flag o) = true.
Proof. intros H. apply names_flag in H. destruct H as [-> | (_ & H & _)]; [apply prefix_refl|exact H]. Qed.
Lemma flag_no_equal o : split_equal (flag o) = None.
Proof. destruct o; reflexivity. Qed.
Lemma names_no_equal w o : names w o -> split_equal w = None.
Proof. intros H. eapply prefix_no_equal; [apply names_prefix; exact H|apply flag_no_equal]. Qed.
Lemma names_shape w o : names w o -> exists c r, w = String "-"%char (String "-"%char (String c r)) /\ prefix (String c r) (match flag o with String _ (String _ t) => t | _ => EmptyString end) = true.
Proof.
  intros H. assert (L : (2 < String.length w)%nat) by (destruct (names_flag _ _ H) as [-> | (H' & _)]; [destruct o; cbn; lia|exact H']).
  apply names_prefix in H. assert (F : exists t, flag o = String "-"%char (String "-"%char t)) by (destruct o; eexists; reflexivity). destruct F as (t & F). rewrite F in *.
  destruct w as [|a [|b [|c r]]]; cbn [String.length] in L; try lia.
  apply prefix_cons in H. destruct H as (t1 & E1 & H). injection E1 as <- <-. apply prefix_cons in H. destruct H as (t2 & E2 & H). injection E2 as <- <-.
  exists c, r. split; [reflexivity|exact H].
Qed.
Lemma exact_some w o : exact w = Some o -> w = "-h"%string \/ w = flag o.
Proof.
  unfold exact. destruct (String.eqb_spec w "-h") as [->|_]; [left; reflexivity|]. intros H. apply find_some in H. destruct H as (_ & H). apply String.eqb_eq in H. right. symmetry. exact H.
Qed.
Lemma filter_one {A} (f : A -> bool) l a : NoDup l -> In a l -> f a = true -> (forall b, In b l -> f b = true -> b = a) -> filter f l = [a].
Proof.
  intros ND. induction ND as [|b l NI ND IH]; intros HI HA HO; [destruct HI|]. cbn [filter]. destruct HI as [->|HI].
  - rewrite HA. f_equal. destruct (filter f l) as [|c r] eqn:E; [reflexivity|]. exfalso. assert (Hc : In c (filter f l)) by (rewrite E; left; reflexivity). apply filter_In in Hc. destruct Hc as (H1 & H2).
    apply NI. rewrite <- (HO c (or_intror H1) H2). exact H1.
  - destruct (f b) eqn:EB; [exfalso; apply NI; rewrite (HO b (or_introl eq_refl) EB); exact HI|]. apply IH; [exact HI|exact HA|]. intros c Hc. apply HO. right. exact Hc.
Qed.
Lemma nodup_options : NoDup options.
Proof.
  assert (H : NoDup (map flag options)); [|exact (NoDup_map_inv _ _ H)].
  cbn [map options]. repeat (constructor; [intros X; cbn [In] in X; repeat (destruct X as [X|X]; [discriminate X|]); exact X|]). constructor.
Qed.
Lemma names_exact w o o' : names w o -> exact w = Some o' -> o' = o.
Proof.
  intros H E. destruct (names_shape w o H) as (c & r & EW & _). destruct (exact_some w o' E) as [->| ->]; [discriminate EW|].
  apply names_flag in H. destruct H as [H|(_ & _ & H)]; [apply flag_inj; exact H|apply H; apply prefix_refl].
Qed.
Lemma matches w o : names w o -> exact w <> Some o -> filter (fun o' => prefix w (flag o')) options = [o].
Proof.
  intros H NE. apply names_flag in H. destruct H as [-> | (_ & HP & HU)]; [exfalso; apply NE; apply exact_flag|]. apply filter_one; [exact nodup_options|apply in_options|exact HP|]. intros b _. apply HU.
Qed.
Lemma read_name w o : names w o -> read_argument w = Option_ o None.
Proof.
  intros H. destruct (names_shape w o H) as (c & r & E & _). unfold read_argument. rewrite E at 1. cbn [Ascii.eqb]. change (negb (Ascii.eqb "-" "-")) with false. cbv iota.
  destruct (exact w) as [o'|] eqn:EX; [rewrite (names_exact w o o' H EX); reflexivity|].
  rewrite (names_no_equal w o H). rewrite (matches w o H) by (rewrite EX; discriminate).
  rewrite E. cbn [String.eqb Ascii.eqb prefix]. reflexivity.
Qed.
Lemma split_joined w v : split_equal w = None -> split_equal (w ++ String "="%char v)%string = Some (w, v).
Proof.
  induction w as [|c w IH]; intros H; [reflexivity|]. cbn [append split_equal] in *. destruct (Ascii.eqb c "="%char); [discriminate|]. destruct (split_equal w) as [[]|] eqn:E; [discriminate|]. rewrite IH by reflexivity. reflexivity.
Qed.
Lemma read_joined w o v : names w o -> read_argument (w ++ String "="%char v)%string = Option_ o (Some v).
Proof.
  intros H. pose proof (split_joined w v (names_no_equal w o H)) as SP. destruct (names_shape w o H) as (c & r & E & _). set (x := (w ++ String "="%char v)%string) in *.
  assert (EX : exact x = None).
  { destruct (exact x) as [o'|] eqn:EX; [|reflexivity]. exfalso. destruct (exact_some x o' EX) as [H1|H1]; rewrite H1 in SP; [discriminate SP|rewrite flag_no_equal in SP; discriminate SP]. }
  assert (SX : exists y, x = String "-"%char (String "-"%char (String c y))) by (unfold x; rewrite E; eexists; reflexivity). destruct SX as (y & SX). clearbody x.
  unfold read_argument. rewrite SX at 1. change (negb (Ascii.eqb "-" "-")) with false. cbv iota. rewrite EX, SP.
  destruct (exact w) as [o'|] eqn:EW.
  - rewrite (names_exact w o o' H EW). rewrite SX. reflexivity.
  - rewrite (matches w o H) by (rewrite EW; discriminate). rewrite SX. reflexivity.
Qed.
Lemma read_plain v : plain v -> read_argument v = Value.
Proof. destruct v as [|c r]; intros H; [reflexivity|]. unfold read_argument. cbn in H. destruct (Ascii.eqb_spec c "-"%char) as [E|_]; [contradiction|reflexivity]. Qed.
Lemma given_written l ws : Forall2 written l ws -> given (concat ws) = Some l.
Proof.
  intros F. induction F as [|p w l ws H F IH]; [reflexivity|]. cbn [concat].
  destruct H as [o w v NH NN HW HP|o w v NH NN HW|w HW]; cbn [Datatypes.app given].
  - rewrite (read_name w o HW), (read_plain v HP), IH. destruct o; try reflexivity; [destruct (NH eq_refl)|destruct (NN eq_refl)].
  - rewrite (read_joined w o v HW), IH. destruct o; try reflexivity; [destruct (NH eq_refl)|destruct (NN eq_refl)].
  - rewrite (read_name w Normalize HW), IH. reflexivity.
Qed.
Lemma last_of_chosen o l v : last_of o l = Some v <-> chosen o l v.
Proof.
  unfold chosen. revert v. induction l as [|[o' w] l IH]; intros v; cbn [last_of].
  - split; [discriminate|]. intros (b & a & H & _). destruct b; discriminate.
  - destruct (last_of o l) as [x|] eqn:E.
    + split.
      * intros H. injection H as <-. destruct (proj1 (IH x) eq_refl) as (b & a & -> & NI). exists ((o', w) :: b), a. auto.
      * intros (b & a & H & NI). destruct b as [|p b]; cbn [Datatypes.app] in H; injection H as E1 E2.
        -- subst. exfalso. destruct (proj1 (IH x) eq_refl) as (b & a' & -> & _). apply NI. rewrite map_app. apply in_or_app. right. left. reflexivity.
        -- f_equal. assert (HX : Some x = Some v); [apply (proj2 (IH v)); eauto|injection HX as HX; exact HX].
    + assert (NO : forall b a, l = b ++ (o, v) :: a -> In o (map fst a)).
      { intros b a ->. destruct (in_dec (fun x y => match opt_eqb_spec x y with ReflectT _ h => left h | ReflectF _ h => right h end) o (map fst a)) as [HI|HI]; [exact HI|].
        assert (HX : None = Some v) by (apply (proj2 (IH v)); eauto). discriminate HX. }
      destruct (opt_eqb_spec o o') as [->|NE].
      * split.
        -- intros H. injection H as <-. exists [], l. split; [reflexivity|]. intros HI. clear NO.
           assert (HL : exists x, last_of o' l = Some x).
           { clear -HI. induction l as [|[o2 y] l IH2]; [destruct HI|]. cbn [last_of]. destruct (last_of o' l) as [z|] eqn:EZ; [eauto|]. destruct HI as [HI|HI]; [cbn in HI; subst; destruct (opt_eqb_spec o' o') as [_|N]; [eauto|contradiction]|]. destruct (IH2 HI) as (z & Hz). discriminate Hz. }
           destruct HL as (x & HL). rewrite HL in E. discriminate E.
        -- intros (b & a & H & NI). destruct b as [|p b]; cbn [Datatypes.app] in H; injection H as E1 E2; [subst; reflexivity|]. exfalso. exact (NI (NO b a E2)).
      * split; [discriminate|]. intros (b & a & H & NI). destruct b as [|p b]; cbn [Datatypes.app] in H; injection H as E1 E2; [congruence|]. exfalso. exact (NI (NO b a E2)).
Qed.
Lemma last_of_absent o l : last_of o l = None <-> absent o l.
Proof.
  unfold absent. induction l as [|[o' v] l IH]; cbn [last_of map fst]; [tauto|]. destruct (last_of o l) as [x|] eqn:E.
  - split; [discriminate|]. intros H. exfalso. assert (N : Some x = None) by (apply (proj2 IH); intros HI; apply H; right; exact HI). discriminate N.
  - destruct (opt_eqb_spec o o') as [->|NE]; [split; [discriminate|intros H; exfalso; apply H; left; reflexivity]|]. split; [|reflexivity]. intros _ [H|H]; [congruence|exact (proj1 IH eq_refl H)].
Qed.
Lemma last_of_in o l : (exists v, last_of o l = Some v) <-> In o (map fst l).
Proof.
  split.
  - intros (v & H). apply last_of_chosen in H. destruct H as (b & a & -> & _). rewrite map_app. apply in_or_app. right. left. reflexivity.
  - intros H. destruct (last_of o l) as [v|] eqn:E; [eauto|]. apply last_of_absent in E. contradiction.
Qed.
Lemma truth_on o l : (match last_of o l with Some v => truth v | None => false end) = true <-> exists v, chosen o l v /\ v <> EmptyString.
Proof.
  destruct (last_of o l) as [v|] eqn:E.
  - apply last_of_chosen in E. unfold truth. rewrite negb_true_iff. split.
    + intros H. exists v. split; [exact E|]. apply String.eqb_neq. exact H.
    + intros (w & HW & HN). apply last_of_chosen in E. apply last_of_chosen in HW. rewrite E in HW. injection HW as <-. apply String.eqb_neq. exact HN.
  - split; [discriminate|]. intros (v & H & _). apply last_of_chosen in H. rewrite E in H. discriminate H.
Qed.

(** ** C79.  A command line is accepted exactly when the four required options
    are given and the integers are integers, and then the settings are those it
    describes: the last value of each option, or the documented default.  The
    order of the options does not matter. *)
Theorem C79_command : forall int_of l ws, Forall2 written l ws ->
  match read_command int_of (concat ws) with
  | Some s => described int_of l s /\ complete l /\ numbers int_of l
  | None => ~ (complete l /\ numbers int_of l)
  end.
Proof.
  intros int_of l ws F. unfold read_command. rewrite (given_written l ws F). clear F ws.
  assert (NB : forallb (well_typed int_of) l = true <-> numbers int_of l).
  { rewrite forallb_forall. unfold numbers, well_typed. split.
    - intros H o v HI HO. specialize (H (o, v) HI). cbn [fst snd] in H. destruct HO as [-> | ->]; destruct (int_of v) as [n|]; eauto; discriminate.
    - intros H [o v] HI. cbn [fst snd]. destruct o; try reflexivity; destruct (H _ _ HI ltac:(auto)) as (n & ->); reflexivity. }
  destruct (forallb (well_typed int_of) l) eqn:EN.
  2:{ intros (_ & H). apply NB in H. discriminate H. }
  destruct NB as (NB & _). specialize (NB eq_refl).
  assert (CO : forall o, In o [Model; Function; Output; DatasetSize] -> last_of o l = None -> ~ (complete l /\ numbers int_of l)).
  { intros o Ho E (HC & _). apply last_of_absent in E. apply E. apply HC. exact Ho. }
  destruct (last_of Model l) as [m|] eqn:E1; [|apply (CO Model); cbn; auto].
  destruct (last_of Function l) as [f|] eqn:E2; [|apply (CO Function); cbn; auto].
  destruct (last_of Output l) as [out|] eqn:E3; [|apply (CO Output); cbn; auto].
  destruct (last_of DatasetSize l) as [n|] eqn:E4; [|apply (CO DatasetSize); cbn; auto].
  assert (IN : forall o v, last_of o l = Some v -> In (o, v) l).
  { intros o v H. apply last_of_chosen in H. destruct H as (b & a & -> & _). apply in_or_app. right. left. reflexivity. }
  destruct (NB DatasetSize n (IN _ _ E4) ltac:(auto)) as (samples & ES). rewrite ES.
  assert (EP : exists page, match last_of PageSize l with Some p => int_of p | None => Some 4096 end = Some page /\
    ((exists v, chosen PageSize l v /\ int_of v = Some page) \/ absent PageSize l /\ page = 4096)).
  { destruct (last_of PageSize l) as [p|] eqn:E5.
    - destruct (NB PageSize p (IN _ _ E5) ltac:(auto)) as (page & EP). exists page. split; [exact EP|]. left. exists p. split; [apply last_of_chosen; exact E5|exact EP].
    - exists 4096. split; [reflexivity|]. right. split; [apply last_of_absent; exact E5|reflexivity]. }
  destruct EP as (page & EP & HP). rewrite EP.
  assert (DF : forall o d, chosen o l (or_else (last_of o l) d) \/ absent o l /\ or_else (last_of o l) d = d).
  { intros o d. destruct (last_of o l) as [v|] eqn:E; cbn [or_else]; [left; apply last_of_chosen; exact E|right; split; [apply last_of_absent; exact E|reflexivity]]. }
  split; [|split].
  - constructor; cbn [st_model st_function st_output st_samples st_dataset st_normalize st_conv st_optimization st_target st_page st_bin st_verbose st_hex st_first]; try apply truth_on; try (apply last_of_chosen; assumption); try reflexivity.
    + exists n. split; [apply last_of_chosen; exact E4|exact ES].
    + destruct (last_of Dataset l) as [d|] eqn:E; [apply last_of_chosen; exact E|apply last_of_absent; exact E].
    + rewrite <- last_of_in. destruct (last_of Normalize l) as [v|]; split; intros H; eauto; try discriminate. destruct H as (v & H). discriminate H.
    + apply DF.
    + apply DF.
    + exact HP.
  - intros o Ho. apply last_of_in. destruct Ho as [<-|[<-|[<-|[<-|[]]]]]; eauto.
  - exact NB.
Qed.
Print Assumptions C79_command.

(** Options given once, in any order: the same settings. *)
Lemma forallb_perm {A} (f : A -> bool) l l' : Permutation.Permutation l l' -> forallb f l = forallb f l'.
Proof. intros P. induction P as [|x l l' P IH|x y l|l1 l2 l3 P1 IH1 P2 IH2]; cbn; [reflexivity|rewrite IH; reflexivity|destruct (f x), (f y); reflexivity|congruence]. Qed.
Theorem C79_order : forall int_of l ws l' ws', Forall2 written l ws -> Forall2 written l' ws' ->
  NoDup (map fst l) -> Permutation.Permutation l l' -> read_command int_of (concat ws) = read_command int_of (concat ws').
Proof.
  intros int_of l ws l' ws' F F' ND P.
  assert (ND' : NoDup (map fst l')) by (eapply Permutation.Permutation_NoDup; [apply Permutation.Permutation_map; exact P|exact ND]).
  assert (ON : forall k (o : opt) (v : string), NoDup (map fst k) -> (last_of o k = Some v <-> In (o, v) k)).
  { intros k o v N. rewrite last_of_chosen. split; [intros (b & a & -> & _); apply in_or_app; right; left; reflexivity|].
    intros HI. apply in_split in HI. destruct HI as (b & a & ->). exists b, a. split; [reflexivity|]. rewrite map_app in N. cbn [map fst] in N. apply NoDup_remove_2 in N. intros H. apply N. apply in_or_app. right. exact H. }
  assert (EL : forall o, last_of o l = last_of o l').
  { intros o. destruct (last_of o l) as [v|] eqn:E1; destruct (last_of o l') as [v'|] eqn:E2; try reflexivity.
    - apply (ON l o v ND) in E1. apply (Permutation.Permutation_in _ P) in E1. apply (ON l' o v ND') in E1. congruence.
    - apply (ON l o v ND) in E1. apply (Permutation.Permutation_in _ P) in E1. apply (ON l' o v ND') in E1. congruence.
    - apply (ON l' o v' ND') in E2. apply (Permutation.Permutation_in _ (Permutation.Permutation_sym P)) in E2. apply (ON l o v' ND) in E2. congruence. }
  unfold read_command. rewrite (given_written l ws F), (given_written l' ws' F'), (forallb_perm _ _ _ P), !EL. reflexivity.
Qed.
Print Assumptions C79_order.

(** ** The loader is chosen by the end of the file's name. *)
Definition directory_like (p : string) : Prop := p = EmptyString \/ exists q, p = (q ++ "/")%string.
Lemma components_last l e : (forall c, In c e -> c <> "/"%char) ->
  components (l ++ e) = removelast (components l) ++ [last (components l) [] ++ e].
Proof.
  intros H. induction l as [|c l IH]; cbn [Datatypes.app components].
  - induction e as [|c e IHe]; [reflexivity|]. cbn [components]. destruct (Ascii.eqb_spec c "/"%char) as [E|_]; [exfalso; exact (H c (or_introl eq_refl) E)|]. rewrite IHe by (intros d Hd; apply H; right; exact Hd). reflexivity.
  - assert (NE : components l <> []) by (destruct l as [|d l]; cbn; [discriminate|]; destruct (Ascii.eqb d "/"%char); [discriminate|]; destruct (components l); discriminate).
    destruct (Ascii.eqb c "/"%char).
    + rewrite IH. cbn [removelast last]. destruct (components l) as [|p ps]; [contradiction|]. reflexivity.
    + rewrite IH. destruct (components l) as [|p ps]; [contradiction|]. destruct ps as [|p2 ps]; reflexivity.
Qed.
Lemma components_split l : components l <> [].
Proof. destruct l as [|d l]; cbn; [discriminate|]. destruct (Ascii.eqb d "/"%char); [discriminate|]. destruct (components l); discriminate. Qed.
Lemma last_component l : l <> [] -> last l "a"%char <> "/"%char -> last (components l) [] <> [].
Proof.
  induction l as [|c l IH]; intros N HL; [contradiction|]. cbn [components]. destruct l as [|d l].
  - cbn in HL |- *. destruct (Ascii.eqb_spec c "/"%char) as [E|_]; [contradiction|]. cbn. discriminate.
  - assert (G : last (components (d :: l)) [] <> []) by (apply IH; [discriminate|exact HL]). pose proof (components_split (d :: l)) as NE. set (q := components (d :: l)) in *. clearbody q.
    destruct (Ascii.eqb c "/"%char); [destruct q; [contradiction|exact G]|]. destruct q as [|p ps]; [contradiction|]. destruct ps as [|p2 ps]; [cbn; discriminate|exact G].
Qed.
Lemma last_dot_app c e : (forall d, In d e -> d <> "."%char) -> last_dot (c ++ "."%char :: e) = Some (c, e).
Proof.
  intros H. induction c as [|d c IH]; cbn [Datatypes.app last_dot]; [|rewrite IH; reflexivity].
  assert (NE : last_dot e = None). { clear -H. induction e as [|d e IH]; [reflexivity|]. cbn [last_dot]. rewrite IH by (intros x Hx; apply H; right; exact Hx). destruct (Ascii.eqb_spec d "."%char) as [E|_]; [exfalso; exact (H d (or_introl eq_refl) E)|reflexivity]. }
  rewrite NE. reflexivity.
Qed.
Lemma last_filter {A} (f : A -> bool) l a d : f a = true -> last (filter f (l ++ [a])) d = a.
Proof. intros H. rewrite filter_app. cbn [filter]. rewrite H. induction (filter f l) as [|x r IH]; [reflexivity|]. cbn [Datatypes.app]. destruct (r ++ [a]) eqn:E; [destruct r; discriminate|exact IH]. Qed.
Lemma chars_app a b : chars (a ++ b)%string = chars a ++ chars b.
Proof. unfold chars. induction a as [|c a IH]; [reflexivity|]. cbn. f_equal. exact IH. Qed.
Lemma chars_last p : ~ directory_like p -> chars p <> [] /\ last (chars p) "a"%char <> "/"%char.
Proof.
  intros H. destruct p as [|c p]; [exfalso; apply H; left; reflexivity|]. split; [discriminate|]. intros E. apply H. right.
  exists (string_of_list_ascii (removelast (chars (String c p)))).
  rewrite <- (string_of_list_ascii_of_string (String c p)) at 1. fold (chars (String c p)). rewrite (app_removelast_last "a"%char (l := chars (String c p))) at 1 by discriminate. rewrite E.
  generalize (removelast (chars (String c p))). intros l. induction l as [|x l IH]; [reflexivity|]. cbn. f_equal. exact IH.
Qed.
Lemma suffix_of p e : ~ directory_like p -> e <> [] -> (forall c, In c e -> c <> "/"%char /\ c <> "."%char) ->
  suffix (chars p ++ "."%char :: e) = "."%char :: e.
Proof.
  intros HP NE HE. destruct (chars_last p HP) as (N & L). unfold suffix, path_name.
  rewrite components_last; [|intros c [<-|Hc]; [discriminate|apply HE; exact Hc]].
  pose proof (last_component (chars p) N L) as NC. set (lc := last (components (chars p)) []) in *. clearbody lc.
  rewrite last_filter; [|destruct lc as [|a [|b lc]]; [contradiction|reflexivity|reflexivity]].
  rewrite last_dot_app by (intros d Hd; apply HE; exact Hd). destruct lc as [|a lc]; [contradiction|]. destruct e as [|x e]; [contradiction|reflexivity].
Qed.
Theorem C79_formats : forall minor p, ~ directory_like p ->
  choose_loader minor (p ++ ".json") = Some JSON /\
  choose_loader minor (p ++ ".onnx") = Some ONNX /\
  choose_loader minor (p ++ ".nnet") = Some NNET /\
  choose_loader minor (p ++ ".h5") = if (10 <=? minor) && (minor <=? 11) then Some H5 else None.
Proof.
  intros minor p HP. unfold choose_loader. rewrite !chars_app.
  change (chars ".json") with ("."%char :: chars "json"). change (chars ".onnx") with ("."%char :: chars "onnx"). change (chars ".nnet") with ("."%char :: chars "nnet"). change (chars ".h5") with ("."%char :: chars "h5").
  assert (OK : forall e, In e [chars "json"; chars "onnx"; chars "nnet"; chars "h5"] -> e <> [] /\ forall c, In c e -> c <> "/"%char /\ c <> "."%char).
  { intros e H. cbn in H. destruct H as [<-|[<-|[<-|[<-|[]]]]]; (split; [discriminate|]); intros c Hc; cbn in Hc; repeat (destruct Hc as [<-|Hc]; [split; discriminate|]); destruct Hc. }
  rewrite !suffix_of by (first [exact HP | apply OK; cbn; auto | intros c Hc; revert c Hc; apply OK; cbn; auto]).
  repeat split; try reflexivity.
  - cbn. destruct ((minor <? 12) && (10 <=? minor)); reflexivity.
  - cbn. replace (minor <? 12) with (minor <=? 11) by lia. rewrite andb_true_r, andb_comm. destruct ((10 <=? minor) && (minor <=? 11)); reflexivity.
Qed.
Print Assumptions C79_formats.

(** ** What is generated. *)
Section Generated.
  Context {Body Attr File Fields Normalizer : Type}.
  Variable int_of : string -> option Z.
  Variable minor : Z.
  Variable file_at : string -> option File.
  Variable json_fields : File -> option Fields.
  Variable json_rest : Fields -> option (list (vlayer Body Attr)).
  Variable load_onnx load_h5 : File -> option (list (vlayer Body Attr)).
  Variable load_nnet : File -> option (list (vlayer Body Attr) * Normalizer).
  Variable optimise : list (vlayer Body Attr) -> list (vlayer Body Attr).
  Notation run := (acetone_generate int_of minor file_at json_fields json_rest load_onnx load_h5 load_nnet optimise).

  (** The network the file contains, read by the loader of its format. *)
  Inductive contains (file : string) : list (vlayer Body Attr) -> option Normalizer -> Prop :=
  | Onnx_file f n : choose_loader minor file = Some ONNX -> file_at file = Some f -> load_onnx f = Some n -> contains file n None
  | H5_file f n : choose_loader minor file = Some H5 -> file_at file = Some f -> load_h5 f = Some n -> contains file n None
  | Nnet_file f n z : choose_loader minor file = Some NNET -> file_at file = Some f -> load_nnet f = Some (n, z) -> contains file n (Some z).

  (** C79: the network of the file is generated, after the optimisations if they
      are on, with the asked implementation for every convolution and the only
      one for the other layers.  Normalisation, of NNET files only, uses the
      bounds and means of the file. *)
Theorem C79_generated_partial : forall l ws s n z, Forall2 written l ws -> read_command int_of (concat ws) = Some s ->
    contains (st_model s) n z -> (st_normalize s = true -> z <> None) -> NoDup (map v_idx (if st_optimization s then optimise n else n)) ->
    exists j, run (concat ws) = Some j /\
      job_settings j = s /\
      job_net j = (if st_optimization s then optimise n else n) /\
      job_normalizer j = (if st_normalize s then z else None) /\
      job_choice j = map (fun y => (v_idx y, if String.eqb (v_name y) "Conv2D" then Some (st_conv s) else None)) (job_net j).
  Proof.
    intros l ws s n z F ER HC HN ND. unfold acetone_generate. rewrite ER.
    assert (CH : forall n' : list (vlayer Body Attr), NoDup (map v_idx n') ->
      select (Some (conv_request (st_conv s))) n' = map (fun y => (v_idx y, if String.eqb (v_name y) "Conv2D" then Some (st_conv s) else None)) n').
    { intros n' N. rewrite (select_eq _ _ N). apply map_ext. intros y. f_equal. unfold choice, conv_request, documented_default. destruct (String.eqb_spec (v_name y) "Conv2D") as [E|E]; [reflexivity|]. destruct (string_dec (v_name y) "Conv2D"); [contradiction|reflexivity]. }
    destruct HC as [f n EC EF EL|f n EC EF EL|f n z EC EF EL]; rewrite EC, EF; cbn [load]; rewrite EL; cbv beta iota.
    - assert (NN : st_normalize s = false) by (destruct (st_normalize s); [exfalso; apply HN; reflexivity|reflexivity]). rewrite NN. cbn [returned]. eexists. split; [reflexivity|]. cbn. rewrite (CH _ ND). auto.
    - assert (NN : st_normalize s = false) by (destruct (st_normalize s); [exfalso; apply HN; reflexivity|reflexivity]). rewrite NN. cbn [returned]. eexists. split; [reflexivity|]. cbn. rewrite (CH _ ND). auto.
    - unfold returned. rewrite Z.eqb_refl. eexists. split; [reflexivity|]. cbn. rewrite (CH _ ND). auto.
  Qed.
  (** C79, refuted for JSON files, which are never loaded, *)
Theorem C79_json_refuted : forall ws s, read_command int_of ws = Some s -> choose_loader minor (st_model s) = Some JSON -> run ws = None.
  Proof.
    intros ws s ER EC. unfold acetone_generate. rewrite ER, EC. destruct (file_at (st_model s)) as [f|]; [|reflexivity]. cbn [load]. unfold load_json. destruct (json_fields f); reflexivity.
  Qed.
  (** and for --normalize with a file of another format, which the help says is ignored. *)
Theorem C79_normalize_refuted : forall ws s k, read_command int_of ws = Some s -> st_normalize s = true ->
    choose_loader minor (st_model s) = Some k -> k <> NNET -> run ws = None.
  Proof.
    intros ws s k ER EN EC NK. unfold acetone_generate. rewrite ER, EC. destruct (file_at (st_model s)) as [f|]; [|reflexivity].
    destruct (load json_fields json_rest load_onnx load_h5 load_nnet k f) as [[n z]|]; [|reflexivity]. rewrite EN. destruct k; try reflexivity. contradiction.
  Qed.
End Generated.
Print Assumptions C79_generated_partial.
Print Assumptions C79_json_refuted.
Print Assumptions C79_normalize_refuted.

(** C79, refuted for the boolean options: any value turns them on, "False" too. *)
Theorem C79_booleans_refuted : forall int_of l ws s v, Forall2 written l ws -> read_command int_of (concat ws) = Some s -> v <> EmptyString ->
  (chosen Optimization l v -> st_optimization s = true) /\
  (chosen BinDataset l v -> st_bin s = true) /\
  (chosen Verbose l v -> st_verbose s = true).
Proof.
  intros int_of l ws s v F ER NV. pose proof (C79_command int_of l ws F) as H. rewrite ER in H. destruct H as (D & _).
  repeat split; intros HC; [apply (d_optimization _ _ _ D)|apply (d_bin _ _ _ D)|apply (d_verbose _ _ _ D)]; eauto.
Qed.
Print Assumptions C79_booleans_refuted.

(** ** Examples. *)
Open Scope string_scope.
Definition small_int (s : string) : option Z := if digits s && negb (String.eqb s "") then Some (fold_left (fun a c => a * 10 + Z.of_nat (nat_of_ascii c) - 48)%Z (chars s) 0%Z) else None.
Definition ex_given : list (opt * string) :=
  [(Model, "nets/lenet5.onnx"); (Function, "lenet5"); (Output, "out"); (DatasetSize, "10"); (Conv, "6loops"); (BinDataset, "False"); (Conv, "std_gemm_tt"); (DatasetSize, "12")].
Definition ex_words : list (list string) :=
  [["--model"; "nets/lenet5.onnx"]; ["--fun=lenet5"]; ["--output"; "out"]; ["--dataset-size=10"]; ["--conv"; "6loops"]; ["--bin"; "False"]; ["--c=std_gemm_tt"]; ["--dataset-s"; "12"]].
Example C79_written_ok : Forall2 written ex_given ex_words.
Proof.
  unfold ex_given, ex_words.
  assert (Sep : forall o w v, o <> Help -> o <> Normalize -> names w o -> plain v -> written (o, v) [w; v]) by (intros; constructor; assumption).
  assert (Joi : forall o w v x, o <> Help -> o <> Normalize -> names w o -> x = (w ++ String "="%char v) -> written (o, v) [x]) by (intros; subst; constructor; assumption).
  assert (Full : forall o, names (flag o) o) by (intros; apply names_of_flag; left; reflexivity).
  assert (Abbr : forall w o, (2 < String.length w)%nat -> filter (fun o' => prefix w (flag o')) options = [o] -> names w o).
  { intros w o HL HF. apply names_of_flag. right. assert (HI : In o (filter (fun o' => prefix w (flag o')) options)) by (rewrite HF; left; reflexivity). apply filter_In in HI. split; [exact HL|]. split; [apply HI|].
    intros o' HO. assert (H2 : In o' (filter (fun o' => prefix w (flag o')) options)) by (apply filter_In; split; [apply in_options|exact HO]). rewrite HF in H2. destruct H2 as [<-|[]]. reflexivity. }
  repeat (apply Forall2_cons); try apply Forall2_nil.
  - apply (Sep Model "--model"); try discriminate. apply (Full Model).
  - apply (Joi Function "--fun"); try discriminate; try reflexivity. apply Abbr; [cbn; lia|reflexivity].
  - apply (Sep Output "--output"); try discriminate. apply (Full Output).
  - apply (Joi DatasetSize "--dataset-size"); try discriminate; try reflexivity. apply (Full DatasetSize).
  - apply (Sep Conv "--conv"); try discriminate. apply (Full Conv).
  - apply (Sep BinDataset "--bin"); try discriminate. apply Abbr; [cbn; lia|reflexivity].
  - apply (Joi Conv "--c"); try discriminate; try reflexivity. apply Abbr; [cbn; lia|reflexivity].
  - apply (Sep DatasetSize "--dataset-s"); try discriminate. apply Abbr; [cbn; lia|reflexivity].
Qed.
Example C79_command_ok : read_command small_int (concat ex_words) =
  Some (mkSettings "nets/lenet5.onnx" "lenet5" "out" 12 None false "std_gemm_tt" false "generic" 4096 true false true true).
Proof. vm_compute. reflexivity. Qed.
(** Three layers: the convolution gets the asked implementation. *)
Example C79_generated_ok :
  exists j, acetone_generate (File := unit) (Body := unit) (Attr := unit) (Fields := unit) (Normalizer := unit) small_int 11 (fun _ => Some tt) (fun _ => None) (fun _ => None)
    (fun _ => Some [mkVLayer 0 "Input_layer" tt tt; mkVLayer 1 "Conv2D" tt tt; mkVLayer 2 "Dense" tt tt]) (fun _ => None) (fun _ => None) (fun n => n) (concat ex_words) = Some j /\
  job_choice j = [(0%Z, None); (1%Z, Some "std_gemm_tt"); (2%Z, None)] /\
  files_to_gen (file_options (job_settings j)) = ["main.c"; "test_dataset.h"; "inference.c"; "inference.h"; "global_vars.c"; "parameters.c"; "train_hook.c"; "Makefile"; "test_dataset.c"].
Proof. eexists. split; [vm_compute; reflexivity|]. split; reflexivity. Qed.
Example C79_refused_ok :
  read_command small_int ["--model"; "a.json"] = None /\ read_command small_int ["--o"; "x"] = None /\ read_command small_int ["--help"] = None.
Proof. repeat split; reflexivity. Qed.
(** The README's commands name JSON files. *)
Example C79_readme : forall minor, choose_loader minor "tests/models/acas/acas_decr128/acas_decr128.json" = Some JSON.
Proof. intros minor. exact (proj1 (C79_formats minor "tests/models/acas/acas_decr128/acas_decr128" ltac:(intros [H|(q & H)]; [discriminate H|]; apply (f_equal (fun x => last (chars x) "a"%char)) in H; rewrite chars_app in H; cbn [chars list_ascii_of_string] in H; rewrite last_last in H; discriminate H))). Qed.
