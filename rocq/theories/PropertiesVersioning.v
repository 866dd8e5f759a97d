(** * Properties C40, C41: implementation registries and selection. *)
From Coq Require Import String Ascii ZArith List Lia Bool Sorted Permutation.
Import ListNotations.
From Verif Require Import Versioning.
Open Scope Z_scope.

Lemma version_eqb_spec a b : reflect (a = b) (version_eqb a b).
Proof.
  destruct a as [a|], b as [b|]; cbn; try (constructor; congruence).
  destruct (String.eqb_spec a b); constructor; congruence.
Qed.
Lemma version_eqb_refl a : version_eqb a a = true.
Proof. destruct (version_eqb_spec a a); congruence. Qed.

(** String comparison is a total order. *)
Definition str_le (a b : string) : Prop := String.compare a b <> Gt.
Lemma ascii_compare_N a b : Ascii.compare a b = N.compare (N_of_ascii a) (N_of_ascii b).
Proof. reflexivity. Qed.
Lemma str_le_refl a : str_le a a.
Proof. unfold str_le. induction a as [|c a IH]; cbn; [congruence|]. rewrite ascii_compare_N, N.compare_refl. exact IH. Qed.
Lemma str_le_trans a : forall b c, str_le a b -> str_le b c -> str_le a c.
Proof.
  unfold str_le. induction a as [|x a IH]; intros [|y b] [|w c]; cbn; try congruence.
  rewrite !ascii_compare_N.
  destruct (N.compare_spec (N_of_ascii x) (N_of_ascii y)), (N.compare_spec (N_of_ascii y) (N_of_ascii w));
    destruct (N.compare_spec (N_of_ascii x) (N_of_ascii w)); try congruence; try lia; intros; eauto.
Qed.
Lemma str_compare_le a b : String.compare a b <> Lt -> str_le b a.
Proof.
  unfold str_le. revert b. induction a as [|x a IH]; intros [|y b]; cbn; try congruence.
  rewrite !ascii_compare_N. rewrite (N.compare_antisym (N_of_ascii x) (N_of_ascii y)).
  destruct (N.compare (N_of_ascii x) (N_of_ascii y)); cbn; try congruence. apply IH.
Qed.

Section Registry.
  Context {Variant : Type}.
  Notation factory := (factory Variant).

  Lemma lookup_none (f : factory) v : lookup f v = None <-> ~ In v (map fst f).
  Proof.
    induction f as [|[w x] f IH]; cbn; [tauto|]. destruct (version_eqb_spec w v) as [->|NE].
    - split; [discriminate|]. intros H. exfalso. apply H. left. reflexivity.
    - rewrite IH. intuition congruence.
  Qed.
  Lemma lookup_insert e (f : factory) v : ~ In (fst e) (map fst f) ->
    lookup (insert e f) v = if version_eqb (fst e) v then Some (snd e) else lookup f v.
  Proof.
    induction f as [|[w x] f IH]; intros NI; destruct e as [k y]; cbn in *.
    - reflexivity.
    - assert (NE : k <> w) by (intros ->; apply NI; left; reflexivity).
      assert (G : (if version_eqb w v then Some x else lookup (insert (k, y) f) v) =
                  if version_eqb k v then Some y else if version_eqb w v then Some x else lookup f v).
      { rewrite IH by tauto. destruct (version_eqb_spec w v), (version_eqb_spec k v); congruence. }
      destruct (String.compare _ _); [exact G|reflexivity|exact G].
  Qed.
  Lemma in_insert e e' (f : factory) : In e' (insert e f) <-> e' = e \/ In e' f.
  Proof.
    induction f as [|[w x] f IH]; cbn [insert].
    - cbn. intuition.
    - destruct (String.compare _ _); cbn [In]; rewrite ?IH; intuition.
  Qed.
  Lemma insert_NoDup e (f : factory) : ~ In (fst e) (map fst f) -> NoDup (map fst f) -> NoDup (map fst (insert e f)).
  Proof.
    induction f as [|[w x] f IH]; intros NI ND; cbn [insert].
    - cbn. constructor; [tauto|constructor].
    - cbn [map] in *. inversion ND; subst.
      assert (G : NoDup (map fst ((w, x) :: insert e f))).
      { cbn [map]. constructor.
        - intros Hi. apply in_map_iff in Hi as (e' & E & Hi). apply in_insert in Hi as [->|Hi].
          + apply NI. left. symmetry. exact E.
          + apply H1. apply in_map_iff. eauto.
        - apply IH; [|assumption]. intros Hi. apply NI. right. exact Hi. }
      destruct (String.compare _ _); [exact G| |exact G].
      cbn [map]. constructor; [exact NI|exact ND].
  Qed.
  Lemma sorted_aux (f : factory) : forall acc : factory, NoDup (map fst (acc ++ f)) ->
    let r := fold_left (fun acc e => insert e acc) f acc in
    NoDup (map fst r) /\ (forall e, In e r <-> In e acc \/ In e f) /\
    forall v, lookup r v = match lookup acc v with Some x => Some x | None => lookup f v end.
  Proof.
    induction f as [|e f IH]; intros acc ND; cbv zeta; cbn [fold_left].
    - rewrite app_nil_r in ND. split; [exact ND|]. split; [intros e; cbn [In]; tauto|]. intros v. destruct (lookup acc v); reflexivity.
    - assert (NI : ~ In (fst e) (map fst acc)).
      { rewrite map_app in ND. cbn [map] in ND. apply NoDup_remove_2 in ND. intros Hi. apply ND. apply in_or_app. left. exact Hi. }
      assert (ND' : NoDup (map fst (insert e acc ++ f))).
      { rewrite map_app in *. cbn [map] in ND. pose proof (NoDup_remove_1 _ _ _ ND) as ND1. pose proof (NoDup_remove_2 _ _ _ ND) as ND2.
        assert (P : NoDup (fst e :: (map fst acc ++ map fst f))) by (constructor; assumption).
        eapply (Permutation_NoDup (l := fst e :: (map fst acc ++ map fst f))); [|exact P].
        change (fst e :: map fst acc ++ map fst f) with ((fst e :: map fst acc) ++ map fst f).
        apply Permutation_app_tail. clear. induction acc as [|[w x] acc IH]; [reflexivity|].
        cbn [insert]. destruct (String.compare _ _); cbn [map]; try reflexivity.
        - rewrite perm_swap. apply perm_skip. exact IH.
        - rewrite perm_swap. apply perm_skip. exact IH. }
      destruct (IH (insert e acc) ND') as (I1 & I2 & I3). split; [exact I1|]. split.
      + intros e'. rewrite I2, in_insert. cbn [In]. intuition.
      + intros v. rewrite I3, lookup_insert by exact NI. destruct e as [k y]. cbn [lookup fst snd].
        destruct (version_eqb_spec k v) as [->|]; [|reflexivity].
        apply lookup_none in NI. cbn [fst] in NI. rewrite NI. reflexivity.
  Qed.
  Lemma insert_Sorted e (f : factory) :
    StronglySorted (fun a b => str_le (sort_key (fst a)) (sort_key (fst b))) f ->
    StronglySorted (fun a b => str_le (sort_key (fst a)) (sort_key (fst b))) (insert e f).
  Proof.
    induction 1 as [|a f HS IH HF]; cbn [insert]; [constructor; constructor|].
    destruct (String.compare (sort_key (fst e)) (sort_key (fst a))) eqn:E.
    - constructor; [exact IH|]. apply Forall_forall. intros e' He. apply in_insert in He as [->|He].
      + apply str_compare_le. congruence.
      + rewrite Forall_forall in HF. apply HF. exact He.
    - assert (L : str_le (sort_key (fst e)) (sort_key (fst a))) by (unfold str_le; congruence).
      constructor; [constructor; assumption|]. constructor; [exact L|].
      eapply Forall_impl; [|exact HF]. cbn. intros b Hb. eapply str_le_trans; eassumption.
    - constructor; [exact IH|]. apply Forall_forall. intros e' He. apply in_insert in He as [->|He].
      + apply str_compare_le. congruence.
      + rewrite Forall_forall in HF. apply HF. exact He.
  Qed.

  Definition registry_ok (rs : list (version * Variant)) (f : factory) : Prop :=
    NoDup (map fst f) /\ StronglySorted (fun a b => str_le (sort_key (fst a)) (sort_key (fst b))) f /\
    forall v, lookup f v = option_map snd (find (fun r => version_eqb (fst r) v) rs).
  Lemma find_app {A} (p : A -> bool) l1 l2 : find p (l1 ++ l2) = match find p l1 with Some x => Some x | None => find p l2 end.
  Proof. induction l1 as [|a l1 IH]; cbn; [reflexivity|]. destruct (p a); [reflexivity|exact IH]. Qed.
  Lemma history_ok rs : registry_ok rs (history rs).
  Proof.
    unfold history.
    assert (H0 : registry_ok [] (@nil (version * Variant))) by (split; [constructor|split; [constructor|reflexivity]]).
    enough (G : forall rs pre f, registry_ok pre f -> registry_ok (pre ++ rs) (fold_left attempt rs f)) by exact (G rs [] [] H0).
    clear. induction rs as [|r rs IH]; intros pre f H0; cbn [fold_left]; [rewrite app_nil_r; exact H0|].
    replace (pre ++ r :: rs) with ((pre ++ [r]) ++ rs) by (rewrite <- app_assoc; reflexivity). apply IH. clear IH rs.
    destruct H0 as (ND & SO & LK). unfold attempt, register. destruct r as [v x]. cbn [fst snd].
    destruct (lookup f v) as [y|] eqn:E.
    - split; [exact ND|]. split; [exact SO|]. intros w. rewrite LK, find_app. cbn [find fst].
      destruct (find _ pre) as [r|] eqn:EF; [reflexivity|].
      destruct (version_eqb_spec v w) as [->|]; [|reflexivity].
      rewrite LK, EF in E. discriminate.
    - assert (ND' : NoDup (map fst ([] ++ f ++ [(v, x)]))).
      { cbn [app]. rewrite map_app. cbn [map fst]. apply lookup_none in E.
        apply (Permutation_NoDup (l := v :: map fst f)); [|constructor; assumption].
        apply Permutation_cons_append. }
      destruct (sorted_aux (f ++ [(v, x)]) [] ND') as (S1 & _ & S3). unfold py_sorted. split; [exact S1|]. split.
      + assert (G : forall l acc, StronglySorted (fun a b => str_le (sort_key (fst a)) (sort_key (fst b))) acc ->
          StronglySorted (fun a b => str_le (sort_key (fst a)) (sort_key (fst b))) (fold_left (fun (acc : factory) e => insert e acc) l acc)).
        { induction l as [|e l IHl]; intros acc HA; [exact HA|]. apply IHl. apply insert_Sorted. exact HA. }
        apply G. constructor.
      + intros w. rewrite S3. cbn [lookup]. rewrite find_app. cbn [find fst].
        assert (LA : lookup (f ++ [(v, x)]) w = match lookup f w with Some y => Some y | None => if version_eqb v w then Some x else None end).
        { clear. induction f as [|[k y] f IH]; cbn; [reflexivity|]. destruct (version_eqb k w); [reflexivity|exact IH]. }
        rewrite LA, LK. destruct (find _ pre); [reflexivity|]. cbn. destruct (version_eqb v w); reflexivity.
  Qed.
End Registry.

(** ** C41. *)
(** A second registration under a registered name raises and changes nothing. *)
Theorem C41_no_replacement : forall (Variant : Type) (f : factory Variant) v x y,
  lookup f v = Some y -> register f v x = KeyError /\ attempt f (v, x) = f.
Proof. intros Variant f v x y E. unfold attempt, register. cbn [fst]. rewrite E. split; reflexivity. Qed.
Print Assumptions C41_no_replacement.

(** After any sequence of registrations, a name builds the variant of its first
    registration, and nothing else is registered. *)
Theorem C41_first_registration_wins : forall (Variant : Type) (rs : list (version * Variant)) v,
  lookup (history rs) v = option_map snd (find (fun r => version_eqb (fst r) v) rs).
Proof. intros. apply history_ok. Qed.
Print Assumptions C41_first_registration_wins.

(** The listing: every registered name once, the default left out, in order. *)
Theorem C41_listing : forall (Variant : Type) (rs : list (version * Variant)),
  let names := list_implementations (history rs) in
  (forall s, In s names <-> exists x, In (Some s, x) rs) /\ NoDup names /\ StronglySorted str_le names.
Proof.
  intros Variant rs names. destruct (history_ok rs) as (ND & SO & LK). unfold names, list_implementations.
  set (f := history rs) in *. clearbody f.
  assert (IN : forall s, In s (flat_map (fun e : version * Variant => match fst e with Some s => [s] | None => [] end) f) <-> In (Some s) (map fst f)).
  { intros s. rewrite in_flat_map, in_map_iff. split.
    - intros ([[w|] x] & Hi & Hs); cbn in Hs; [|destruct Hs]. destruct Hs as [->|[]]. exists (Some s, x). auto.
    - intros ([w x] & E & Hi). cbn in E. subst w. exists (Some s, x). split; [exact Hi|left; reflexivity]. }
  split; [|split].
  - intros s. rewrite IN. split.
    + intros Hi. destruct (lookup f (Some s)) as [x|] eqn:E; [|apply lookup_none in E; contradiction].
      rewrite LK in E. destruct (find _ rs) as [[w y]|] eqn:EF; [|discriminate]. apply find_some in EF as (H1 & H2). cbn in H2.
      destruct (version_eqb_spec w (Some s)) as [->|]; [eauto|discriminate].
    + intros (x & Hi). destruct (in_dec (fun a b : version => ltac:(decide equality; apply string_dec)) (Some s) (map fst f)) as [H|H]; [exact H|].
      apply lookup_none in H. rewrite LK in H. destruct (find _ rs) eqn:EF; [discriminate|].
      pose proof (find_none _ _ EF _ Hi) as HN. cbn in HN. rewrite String.eqb_refl in HN. discriminate.
  - clear LK SO. induction f as [|[[w|] x] f IH]; cbn in *; [constructor| |].
    + inversion ND; subst. constructor; [|apply IH; [assumption|]].
      * intros Hi. apply in_flat_map in Hi as ([[w'|] x'] & Hi & Hs); cbn in Hs; [|destruct Hs]. destruct Hs as [->|[]].
        apply H1. apply in_map_iff. exists (Some w, x'). auto.
      * intros s. rewrite in_flat_map, in_map_iff. split.
        -- intros ([[w'|] x'] & Hi & Hs); cbn in Hs; [|destruct Hs]. destruct Hs as [->|[]]. exists (Some s, x'). auto.
        -- intros ([w' x'] & E & Hi). cbn in E. subst w'. exists (Some s, x'). split; [exact Hi|left; reflexivity].
    + inversion ND; subst. apply IH; [assumption|]. intros s. rewrite in_flat_map, in_map_iff. split.
      -- intros ([[w'|] x'] & Hi & Hs); cbn in Hs; [|destruct Hs]. destruct Hs as [->|[]]. exists (Some s, x'). auto.
      -- intros ([w' x'] & E & Hi). cbn in E. subst w'. exists (Some s, x'). split; [exact Hi|left; reflexivity].
  - clear LK IN ND. induction SO as [|[[w|] x] f SO IH HF]; cbn; [constructor| |exact IH].
    constructor; [exact IH|]. apply Forall_forall. intros s Hs. apply in_flat_map in Hs as ([[w'|] x'] & Hi & Hs); cbn in Hs; [|destruct Hs].
    destruct Hs as [->|[]]. rewrite Forall_forall in HF. exact (HF _ Hi).
Qed.
Print Assumptions C41_listing.
Example C41_example :
  let h := history [(None, 1%nat); (Some "b", 2%nat); (Some "a", 3%nat); (Some "b", 4%nat)]%string in
  lookup h (Some "b"%string) = Some 2%nat /\ list_implementations h = ["a"; "b"]%string /\ lookup h (Some "c"%string) = None.
Proof. repeat split. Qed.

(** The same for the dictionary of factories. *)
Theorem C41_factories : forall d name f,
  match register_factory d name f with
  | None => factory_of d name <> None
  | Some d' => factory_of d name = None /\ forall n, factory_of d' n = if String.eqb name n then Some f else factory_of d n
  end.
Proof.
  intros d name f. unfold register_factory. destruct (factory_of d name) eqn:E; [discriminate|]. split; [reflexivity|].
  intros n. induction d as [|[k g] d IH]; cbn in *; [reflexivity|].
  destruct (String.eqb_spec k name); [discriminate|]. destruct (String.eqb_spec k n) as [->|]; [|apply IH; exact E].
  destruct (String.eqb_spec name n); [congruence|reflexivity].
Qed.
Print Assumptions C41_factories.

(** ** C40. *)
(** The choice: the identifier first, then the type name, then the default. *)
(** Without a request: the six-loop convolution for Conv2D, the only
    implementation of the other classes otherwise. *)
Definition documented_default (name : string) : version :=
  match string_dec name "Conv2D" with left _ => Some "6loops"%string | right _ => None end.
Lemma default_is_documented name : default_implementation name = documented_default name.
Proof. unfold default_implementation, documented_default. destruct (string_dec name "Conv2D") as [->|H]; [reflexivity|]. apply String.eqb_neq in H. rewrite H. reflexivity. Qed.
Definition choice {Body Attr} (req : option requests) (l : vlayer Body Attr) : version :=
  match req with
  | Some r => match r (ById (v_idx l)), r (ByName (v_name l)) with
              | Some v, _ => v
              | None, Some v => v
              | None, None => documented_default (v_name l)
              end
  | None => documented_default (v_name l)
  end.

Section Selection.
  Context {Body Attr : Type}.
  Notation vlayer := (vlayer Body Attr).
  Context (factories : string -> option (factory (variant Body Attr))).

  Lemma dict_set_new d k v : ~ In k (map fst d) -> dict_set d k v = d ++ [(k, v)].
  Proof.
    induction d as [|[k' v'] d IH]; intros H; cbn in *; [reflexivity|].
    destruct (Z.eqb_spec k k'); [subst; exfalso; apply H; left; reflexivity|]. rewrite IH by tauto. reflexivity.
  Qed.
  Lemma dict_set_last d k v w : ~ In k (map fst d) -> dict_set (d ++ [(k, v)]) k w = d ++ [(k, w)].
  Proof.
    induction d as [|[k' v'] d IH]; intros H; cbn in *; [rewrite Z.eqb_refl; reflexivity|].
    destruct (Z.eqb_spec k k'); [subst; exfalso; apply H; left; reflexivity|]. rewrite IH by tauto. reflexivity.
  Qed.
  Lemma select_eq req (layers : list vlayer) : NoDup (map v_idx layers) ->
    select req layers = map (fun l => (v_idx l, choice req l)) layers.
  Proof.
    intros ND. unfold select.
    assert (G : forall todo done_ : list vlayer, NoDup (map v_idx (done_ ++ todo)) ->
      fold_left (fun sel l =>
        let sel1 := dict_set sel (v_idx l) (default_implementation (v_name l)) in
        match req with
        | None => sel1
        | Some r => match r (ById (v_idx l)) with
                    | Some v => dict_set sel1 (v_idx l) v
                    | None => match r (ByName (v_name l)) with
                              | Some v => dict_set sel1 (v_idx l) v
                              | None => sel1
                              end
                    end
        end) todo (map (fun l => (v_idx l, choice req l)) done_) = map (fun l => (v_idx l, choice req l)) (done_ ++ todo)).
    { induction todo as [|l todo IH]; intros done_ H; cbn [fold_left]; [rewrite app_nil_r; reflexivity|].
      assert (NI : ~ In (v_idx l) (map fst (map (fun l => (v_idx l, choice req l)) done_))).
      { rewrite map_map. cbn [fst]. rewrite map_app in H. cbn [map] in H. apply NoDup_remove_2 in H.
        intros Hi. apply H. apply in_or_app. left. exact Hi. }
      replace (done_ ++ l :: todo) with ((done_ ++ [l]) ++ todo) in * by (rewrite <- app_assoc; reflexivity).
      rewrite <- IH by exact H. f_equal. rewrite map_app. cbn [map]. cbv zeta. rewrite default_is_documented. rewrite dict_set_new by exact NI.
      unfold choice. destruct req as [r|]; [|reflexivity].
      destruct (r (ById (v_idx l))); [apply dict_set_last; exact NI|].
      destruct (r (ByName (v_name l))); [apply dict_set_last; exact NI|reflexivity]. }
    exact (G layers [] ND).
  Qed.

  Fixpoint rebuild_all (req : option requests) (layers : list vlayer) : option (list vlayer) :=
    match layers with
    | [] => Some []
    | l :: ls => match rebuild factories l (choice req l), rebuild_all req ls with Some l', Some ls' => Some (l' :: ls') | _, _ => None end
    end.
  Lemma version_one_none k v (ls : list vlayer) : ~ In k (map v_idx ls) -> version_one factories k v ls = Some ls.
  Proof.
    induction ls as [|l ls IH]; intros H; cbn in *; [reflexivity|].
    destruct (Z.eqb_spec (v_idx l) k); [tauto|]. rewrite IH by tauto. reflexivity.
  Qed.
  Lemma version_one_mid v (l : vlayer) ls2 : forall ls1, NoDup (map v_idx (ls1 ++ l :: ls2)) ->
    version_one factories (v_idx l) v (ls1 ++ l :: ls2) =
    match rebuild factories l v with Some l' => Some (ls1 ++ l' :: ls2) | None => None end.
  Proof.
    induction ls1 as [|a ls1 IH]; intros ND; cbn [app version_one].
    - rewrite Z.eqb_refl. cbn [app map] in ND. inversion ND; subst.
      destruct (rebuild factories l v); [|reflexivity]. rewrite version_one_none by assumption. reflexivity.
    - cbn [app map] in ND. inversion ND as [|? ? NI ND']; subst.
      destruct (Z.eqb_spec (v_idx a) (v_idx l)) as [E|NE].
      { exfalso. apply NI. rewrite map_app. cbn [map]. apply in_or_app. right. left. symmetry. exact E. }
      rewrite IH by exact ND'. destruct (rebuild factories l v); reflexivity.
  Qed.
  Hypothesis KEEP : forall name f v x l w, factories name = Some f -> lookup f v = Some x -> v_idx (x l w) = v_idx l.
  Lemma rebuild_idx l v l' : rebuild factories l v = Some l' -> v_idx l' = v_idx l.
  Proof.
    unfold rebuild. destruct (factories (v_name l)) as [f|] eqn:E; [|discriminate]. destruct (lookup f v) as [x|] eqn:E2; [|discriminate].
    intros [= <-]. cbn. eapply KEEP; eassumption.
  Qed.
  Lemma versioning_eq req (todo : list vlayer) : forall done_, NoDup (map v_idx (done_ ++ todo)) ->
    versioning factories (done_ ++ todo) (map (fun l => (v_idx l, choice req l)) todo) =
    match rebuild_all req todo with Some r => Some (done_ ++ r) | None => None end.
  Proof.
    induction todo as [|l todo IH]; intros done_ ND; cbn [map versioning rebuild_all]; [reflexivity|].
    rewrite version_one_mid by exact ND. destruct (rebuild factories l (choice req l)) as [l'|] eqn:E; [|reflexivity].
    replace (done_ ++ l' :: todo) with ((done_ ++ [l']) ++ todo) by (rewrite <- app_assoc; reflexivity).
    rewrite IH.
    - destruct (rebuild_all req todo); [|reflexivity]. rewrite <- app_assoc. reflexivity.
    - rewrite !map_app in *. cbn [map] in *. rewrite (rebuild_idx _ _ _ E). rewrite <- app_assoc. exact ND.
  Qed.
End Selection.

(** Identifiers are distinct and the registered functions keep them: if every
    choice is registered, each layer is rebuilt by its chosen implementation and
    keeps its identifier and its links; if one is not, KeyError is raised. *)
Theorem C40_selection : forall (Body Attr : Type) (factories : string -> option (factory (variant Body Attr))) req layers,
  NoDup (map v_idx layers) ->
  (forall name f v x l w, factories name = Some f -> lookup f v = Some x -> v_idx (x l w) = v_idx l) ->
  match versioning factories layers (select req layers) with
  | Some layers' =>
      Forall2 (fun l l' => exists f x, factories (v_name l) = Some f /\ lookup f (choice req l) = Some x /\
        v_body l' = v_body (x l (choice req l)) /\ v_attr l' = v_attr l /\ v_idx l' = v_idx l) layers layers'
  | None => exists l, In l layers /\ forall f, factories (v_name l) = Some f -> lookup f (choice req l) = None
  end.
Proof.
  intros Body Attr factories req layers ND KEEP. rewrite select_eq by exact ND.
  pose proof (versioning_eq factories KEEP req layers [] ND) as E. cbn [app] in E. rewrite E. clear E ND.
  induction layers as [|l layers IH]; cbn [rebuild_all]; [constructor|].
  destruct (rebuild factories l (choice req l)) as [l'|] eqn:ER.
  - assert (G : exists f x, factories (v_name l) = Some f /\ lookup f (choice req l) = Some x /\
        v_body l' = v_body (x l (choice req l)) /\ v_attr l' = v_attr l /\ v_idx l' = v_idx l).
    { unfold rebuild in ER. destruct (factories (v_name l)) as [f|] eqn:E1; [|discriminate].
      destruct (lookup f (choice req l)) as [x|] eqn:E2; [|discriminate]. injection ER as <-.
      exists f, x. cbn. repeat split; auto. eapply KEEP; eassumption. }
    destruct (rebuild_all factories req layers) as [ls'|].
    + constructor; assumption.
    + destruct IH as (l0 & H1 & H2). exists l0. split; [right; exact H1|exact H2].
  - exists l. split; [left; reflexivity|]. intros f Hf. unfold rebuild in ER. rewrite Hf in ER.
    destruct (lookup f (choice req l)); [discriminate|reflexivity].
Qed.
Print Assumptions C40_selection.

(** A layer whose identifier and type are not requested is built by the default
    implementation, whatever is requested for the others. *)
Theorem C40_others_unaffected : forall (Body Attr : Type) (r : requests) (l : vlayer Body Attr),
  r (ById (v_idx l)) = None -> r (ByName (v_name l)) = None -> choice (Some r) l = choice None l.
Proof. intros Body Attr r l H1 H2. unfold choice. rewrite H1, H2. reflexivity. Qed.
Print Assumptions C40_others_unaffected.

(** Three layers; the second Conv2D is requested by identifier, the others of
    that type by name; the bodies record how they were built. *)
Open Scope string_scope.
Example C40_example :
  let tag l v := mkVLayer (v_idx l) (v_name l) tt (Some v) in
  let factories n := if String.eqb n "Conv2D" then Some [(Some "6loops", tag); (Some "std_gemm_nn", tag); (Some "direct_block", tag)]
                     else Some [(None, tag)] in
  let layers := [mkVLayer 0 "Input_layer" tt None; mkVLayer 1 "Conv2D" tt None; mkVLayer 2 "Conv2D" tt None] in
  let req := Some (fun k => match k with ById 2 => Some (Some "direct_block") | ByName "Conv2D" => Some (Some "std_gemm_nn") | _ => None end) in
  option_map (map v_body) (versioning factories layers (select req layers))
    = Some [Some None; Some (Some "std_gemm_nn"); Some (Some "direct_block")] /\
  option_map (map v_body) (versioning factories layers (select None layers)) = Some [Some None; Some (Some "6loops"); Some (Some "6loops")] /\
  versioning factories layers (select (Some (fun k => match k with ById 0 => Some (Some "x") | _ => None end)) layers) = None.
Proof. repeat split. Qed.
