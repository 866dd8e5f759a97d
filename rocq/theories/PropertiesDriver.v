(** * Properties C35 (test driver), C42 and C52 (file generation), C48 (test dataset). *)
From Coq Require Import String ZArith List Lia Bool QArith.
Import ListNotations.
From Verif Require Import CMem Num NumInst Graph Net NetProofs LayerKinds LayerKindsProofs ModelProofs PropertiesMovement PropertiesNet Driver DriverProofs.
Open Scope Z_scope.

(** ** C35.  [batch_loop nb mx 0 bs]: the main loop over [nb] samples with
    MAX_BATCH_SIZE = [mx] performs the blocks of calls [bs]; a call
    [mkCall i r] is [inference(&Context[i], predictions[r], nn_test_inputs[r])]. *)
Theorem C35_every_sample_once_in_order : forall nb mx, 0 <= nb -> 0 < mx ->
  exists bs, (forall bs', batch_loop nb mx 0 bs' <-> bs' = bs) /\
    map call_row (concat bs) = tab nb (fun r => r) /\
    Forall (fun b => zlen b <= mx /\ NoDup (map call_ctx b) /\
                     Forall (fun c => 0 <= call_ctx c < mx /\ 0 <= call_row c < nb) b) bs.
Proof.
  intros nb mx Hnb Hmx. destruct (batch_loop_total nb mx Hmx (Z.to_nat nb) 0) as (bs & HB); [lia|lia|].
  exists bs. split.
  - intros bs'. split; [intros H; eapply batch_loop_det; eauto|intros ->; exact HB].
  - destruct (batch_loop_spec nb mx Hnb Hmx 0 bs HB) as (H1 & H2); [lia|apply Z.divide_0_r|].
    rewrite Z.sub_0_r in H1. split; [exact H1|exact H2].
Qed.
Print Assumptions C35_every_sample_once_in_order.

Example C35_every_sample_example : exists bs, batch_loop 70 32 0 bs /\ map zlen bs = [32; 32; 6].
Proof.
  exists [block 70 32 0; block 70 32 32; block 70 32 64]. split; [|reflexivity].
  repeat (apply bl_next; [lia|]). apply bl_exit. lia.
Qed.

(** ** Any interleaving of the threads of each parallel block.  A model's
    inference is cut into atomic actions in any way ([actions]); a thread holds
    its context and the actions left; an access outside an array makes it fail.
    A call puts the sample in nn_input and the thread's prediction row is its
    NnOut array. *)
Inductive thread (N : num) := Running (m : mem (T N)) (todo : list (mem (T N) -> option (mem (T N)))) | Failed.
Arguments Running {N}. Arguments Failed {N}.
Definition thread_step {N} (t : thread N) : option (thread N) :=
  match t with
  | Running m (a :: todo) => Some (match a m with Some m' => Running m' todo | None => Failed end)
  | _ => None
  end.
Definition thread_mem {N} (t : thread N) : mem (T N) := match t with Running m _ => m | Failed => fun _ => [] end.
Fixpoint run_actions {V} (l : list (mem V -> option (mem V))) (m : mem V) : option (mem V) :=
  match l with [] => Some m | a :: l' => m1 <- a m ;; run_actions l' m1 end.

Lemma run_actions_alone {N : num} l : forall (m m' : mem (T N)), run_actions l m = Some m' ->
  alone (@thread_step N) (Running m l) (Running m' []).
Proof.
  induction l as [|a l IH]; intros m m' E; cbn in E; [injection E as <-; constructor|].
  destruct (a m) as [m1|] eqn:Ea; [|discriminate]. cbn in E.
  eapply al_step; [cbn; rewrite Ea; reflexivity|]. apply IH. exact E.
Qed.

Theorem C35_predictions_for_every_schedule :
  forall (N : num) (ninf : T N) (q : Q -> T N) (md : model N) inp s actions nb mx bs
         (ctxs : list (mem (T N))) inputs (preds : list (list (T N))),
  supported N md inp -> python_supported N md -> tri_topo (md_graph N md) = Some s ->
  let net := python_net N ninf q md s in
  (forall m, run_actions actions m = inference net s m) ->
  0 < mx -> zlen ctxs = mx -> Forall (declared net s) ctxs ->
  zlen inputs = nb -> Forall (fun x => zlen x = md_size N md inp) inputs -> zlen preds = nb ->
  batch_loop nb mx 0 bs ->
  let main := exec_blocks thread_step (fun c x => Running (upd c NnIn x) actions) thread_mem
                (fun t => thread_mem t NnOut) inputs bs (ctxs, preds) in
  (exists final, main final) /\
  forall final, main final ->
    Forall2 (fun x y => compute_inference net s x = Some y) inputs (snd final).
Proof.
  intros N ninf q md inp s actions nb mx bs ctxs inputs preds SP PS HS net HA Hmx HC HD HI HX HP HB main.
  set (f := fun x => match compute_inference net s x with Some y => y | None => [] end).
  assert (RES : forall x, zlen x = md_size N md inp -> forall c, declared net s c ->
    exists m', inference net s (upd c NnIn x) = Some m' /\ declared net s m' /\ compute_inference net s x = Some (m' NnOut)).
  { intros x Hx c Hc.
    assert (D' : declared net s (upd c NnIn x)).
    { intros b. destruct (bname_eq_dec b NnIn) as [->|NE].
      - rewrite upd_same. unfold array_size. rewrite (hd_is_input N md inp s SP HS). exact Hx.
      - rewrite upd_other by exact NE. apply Hc. }
    destruct (model_values_exist N ninf q md inp s SP HS x) as (val & Hv).
    destruct (model_inference_ok N ninf q md inp s SP HS (upd c NnIn x) val D') as (m' & E & EO & D2 & _).
    { rewrite upd_same. exact Hv. }
    exists m'. split; [exact E|]. split; [exact D2|]. rewrite EO.
    apply (model_python_ok N ninf q md inp s SP HS); assumption. }
  assert (TERM : forall c x, declared net s c -> zlen x = md_size N md inp ->
    exists l, alone (@thread_step N) (Running (upd c NnIn x) actions) l /\ returned (@thread_step N) l /\
      declared net s (thread_mem l) /\ thread_mem l NnOut = f x).
  { intros c x Hc Hx. destruct (RES x Hx c Hc) as (m' & E & D & EC). exists (Running m' []).
    split; [apply run_actions_alone; rewrite HA; exact E|]. split; [reflexivity|]. split; [exact D|].
    cbn. unfold f. rewrite EC. reflexivity. }
  destruct (batch_loop_spec nb mx) with (j := 0) (bs := bs) as (H1 & H2);
    [rewrite <- HI; apply zlen_nonneg|exact Hmx|exact HB|lia|apply Z.divide_0_r|]. rewrite Z.sub_0_r in H1.
  assert (HG : Forall (good_block nb mx) bs).
  { clear -H2. induction H2 as [|b bs (_ & _ & Hb)]; constructor; assumption. }
  assert (INV : @inv (mem (T N)) (list (T N)) (declared net s) nb mx (ctxs, preds)) by (split; [exact HC|split; [exact HD|exact HP]]).
  split.
  - apply (exec_exists thread_step _ _ _ (declared net s) (fun x => zlen x = md_size N md inp) f TERM nb mx inputs HI HX bs HG _ INV).
  - intros final HE.
    pose proof (exec_result thread_step _ _ _ (declared net s) (fun x => zlen x = md_size N md inp) f TERM nb mx inputs HI HX bs _ _ HE HG INV H1) as ->.
    clear -HX RES HD HC Hmx. assert (exists c, declared net s c) as (c & Dc).
    { destruct ctxs as [|c ctxs]; [change (zlen (@nil (mem (T N)))) with 0 in HC; lia|]. inversion HD; subst. eauto. }
    induction HX as [|x inputs Hx HX IH]; constructor; [|exact IH].
    destruct (RES x Hx c Dc) as (m' & _ & _ & EC). unfold f. rewrite EC. reflexivity.
Qed.
Print Assumptions C35_predictions_for_every_schedule.

(** The hypotheses are met by the model of C08_example with its layers as atomic
    actions, three samples and two contexts. *)
Definition ex_actions : list (mem Z -> option (mem Z)) :=
  let net := python_net Znum 0 ex_q ex_model ex_schedule in
  map (fun n m => run_layer net ex_schedule m n) (order ex_schedule) ++
  [fun m => p <- dget (paths ex_schedule) (last (order ex_schedule) O) ;; output_code net (Out p) m].
Example C35_actions_example : forall m, run_actions ex_actions m = inference (python_net Znum 0 ex_q ex_model ex_schedule) ex_schedule m.
Proof.
  intros m. unfold ex_actions, inference. generalize (order ex_schedule) at 1 3 as l. intros l. revert m.
  induction l as [|n l IH]; intros m; cbn [map app run_actions run_layers].
  - cbn [bind]. destruct (dget _ _); cbn [bind]; [|reflexivity]. destruct (output_code _ _ _); reflexivity.
  - destruct (run_layer (python_net Znum 0 ex_q ex_model ex_schedule) ex_schedule m n); cbn [bind]; [apply IH|reflexivity].
Qed.
Lemma ex_declared : declared (python_net Znum 0 ex_q ex_model ex_schedule) ex_schedule (ex_memory (ramp 9)).
Proof.
  intros b. assert (G : forall n, 0 <= n -> zlen (repeat 7 (Z.to_nat n)) = n).
  { intros n Hn. unfold zlen. rewrite repeat_length. lia. }
  destruct b as [k|k| | |]; unfold ex_memory.
  - apply G. cbn [array_size]. destruct (Nat.ltb _ _); [vm_compute; discriminate|lia].
  - apply G. cbn [array_size]. unfold cst_size. apply max_list_nonneg.
  - apply G. vm_compute. discriminate.
  - vm_compute. reflexivity.
  - apply G. vm_compute. discriminate.
Qed.
Example C35_predictions_example : exists final,
  exec_blocks (@thread_step Znum) (fun c x => @Running Znum (upd c NnIn x) ex_actions) thread_mem (fun t => thread_mem t NnOut)
    [ramp 9; repeat 1 9; ramp 9] [block 3 2 0; block 3 2 2]
    ([ex_memory (ramp 9); ex_memory (ramp 9)], [[]; []; []]) final /\
  snd final = [[440; -99]; [128; 17]; [440; -99]].
Proof.
  pose proof C08_example_supported as (SP & PS).
  pose proof (C35_predictions_for_every_schedule Znum 0 ex_q ex_model 0%nat ex_schedule ex_actions 3 2 [block 3 2 0; block 3 2 2]
    [ex_memory (ramp 9); ex_memory (ramp 9)] [ramp 9; repeat 1 9; ramp 9] [[]; []; []] SP PS) as G.
  destruct G as ((final & HE) & G).
  - vm_compute. reflexivity.
  - apply C35_actions_example.
  - lia.
  - reflexivity.
  - repeat (constructor; [apply ex_declared|]). constructor.
  - reflexivity.
  - repeat (constructor; [reflexivity|]). constructor.
  - reflexivity.
  - repeat (apply bl_next; [lia|]). apply bl_exit. lia.
  - exists final. split; [exact HE|]. specialize (G final HE).
    set (f := fun x => match compute_inference (python_net Znum 0 ex_q ex_model ex_schedule) ex_schedule x with Some y => y | None => [] end).
    assert (E : snd final = map f [ramp 9; repeat 1 9; ramp 9]).
    { clear -G. induction G as [|x y l l' E G IH]; [reflexivity|]. cbn [map]. rewrite IH. f_equal. unfold f. rewrite E. reflexivity. }
    rewrite E. vm_compute. reflexivity.
Qed.

(** The printed text: the rows in order, each value once, one line per sample. *)
Theorem C35_printed : forall (V : Type) (preds : list (list V)) nb width,
  0 < width -> zlen preds = nb -> Forall (fun r => zlen r = width) preds ->
  print_all nb width preds = Some (flat_map (fun r => map Value r ++ [Newline]) preds).
Proof. intros. apply print_all_ok; assumption. Qed.
Print Assumptions C35_printed.
Example C35_printed_example : print_all 2 2 [[1; 2]; [3; 4]] = Some [Value 1; Value 2; Newline; Value 3; Value 4; Newline].
Proof. reflexivity. Qed.

(** ** C48.  [parse]: reading of one line; it may raise. *)
Theorem C48_first_lines_in_order : forall (Line Row : Type) (parse : Line -> option Row) nb lines,
  load_dataset parse nb lines = gather_opt (map parse (firstn (Z.to_nat nb) lines)).
Proof.
  intros. unfold load_dataset. rewrite load_loop_ok, Z.sub_0_r. destruct (gather_opt _); reflexivity.
Qed.
Print Assumptions C48_first_lines_in_order.

(** The same, spelled out: the rows returned are those of the first
    min(requested, available) lines, in order. *)
Theorem C48_number_of_samples : forall (Line Row : Type) (parse : Line -> option Row) nb lines rows,
  load_dataset parse nb lines = Some rows ->
  zlen rows = Z.min (Z.max 0 nb) (zlen lines) /\
  forall k, 0 <= k < zlen rows -> exists line, rdl lines k = Some line /\ parse line = rdl rows k.
Proof.
  intros Line Row parse nb lines rows E. rewrite C48_first_lines_in_order in E. apply gather_opt_some in E.
  assert (L : zlen rows = zlen (firstn (Z.to_nat nb) lines)).
  { apply (f_equal (@List.length _)) in E. rewrite !map_length in E. unfold zlen. lia. }
  split; [rewrite L; unfold zlen; rewrite firstn_length; lia|].
  intros k Hk. destruct (rdl_some (firstn (Z.to_nat nb) lines) k) as (line & El); [lia|].
  exists line. split.
  - rewrite <- (firstn_skipn (Z.to_nat nb) lines). rewrite rdl_app_l by (apply rdl_range in El; lia). exact El.
  - unfold rdl in *. destruct (k <? 0); [discriminate|].
    apply (f_equal (fun l => nth_error l (Z.to_nat k))) in E. rewrite !nth_error_map, El in E. cbn in E.
    destruct (nth_error rows (Z.to_nat k)); cbn in E; congruence.
Qed.
Print Assumptions C48_number_of_samples.
Example C48_example : load_dataset (fun l : Z => if l <? 0 then None else Some (2 * l)) 2 [1; 2; -3; 4] = Some [2; 4].
Proof. reflexivity. Qed.

(** The number of samples declared in the generated header is the number loaded
    for an array, but not for a file shorter than the request: the driver then
    also runs on rows that are not in the file. *)
Theorem C48_declared_samples_of_array : forall (Line Row : Type) (parse : Line -> option Row) random rows nb r n,
  initialise parse random (ArrayDataset rows) nb = Some (r, n) -> r = rows /\ n = zlen rows.
Proof. intros * [= <- <-]. split; reflexivity. Qed.
Theorem C48_declared_samples_refuted : exists (lines : list Z) nb rows n,
  initialise (fun l => Some l) (fun _ => []) (FileDataset lines) nb = Some (rows, n) /\ n <> zlen rows.
Proof. exists [5; 6], 3, [5; 6], 3. split; [reflexivity|discriminate]. Qed.
Print Assumptions C48_declared_samples_refuted.

(** ** C42. *)
Open Scope string_scope.
(** Some file to generate exists: FileExistsError and the directory is as before. *)
Theorem C42_existing_file_raises : forall o text d f c,
  In f (files_to_gen o) -> d f = Some c -> exists f', generate_c_files o text d = FileExistsError f' d.
Proof.
  intros o text d f c Hf Hd. unfold generate_c_files.
  destruct (find _ (files_to_gen o)) as [f'|] eqn:E; [eauto|].
  pose proof (find_none _ _ E f Hf) as H. cbn in H. rewrite Hd in H. discriminate.
Qed.
Print Assumptions C42_existing_file_raises.

(** Without the binary option, an existing file never changes, and otherwise the
    files written are exactly those listed, each with its rendered text. *)
Theorem C42_no_existing_file_changes : forall o text d d',
  o_bin o = false -> generate_c_files o text d = Generated d' ->
  forall f, d' f = if in_dec string_dec f (files_to_gen o) then Some (text f) else d f.
Proof.
  intros [bin ext gen] text d d' Hb E f. cbn in Hb. subst bin. unfold generate_c_files in E.
  destruct (find _ _) as [f'|] eqn:EF; [discriminate|]. injection E as <-.
  assert (W : map w_file (writes (mkOptions false ext gen) text) =
    (["main.c"; "test_dataset.h"; "inference.c"; "inference.h"; "global_vars.c"; "parameters.c"; "train_hook.c"; "Makefile"]
    ++ (if ext then [] else ["test_dataset.c"]) ++ (if gen then [] else ["target.c"; "target.h"]))%list).
  { destruct ext, gen; reflexivity. }
  destruct (in_dec string_dec f (files_to_gen (mkOptions false ext gen))) as [Hi|Hi].
  - apply (fold_write_in (writes (mkOptions false ext gen) text) d f text).
    + rewrite W. destruct ext, gen; repeat (constructor; [cbn; intuition discriminate|]); constructor.
    + rewrite W. exact Hi.
    + pose proof (find_none _ _ EF f Hi) as H. cbn in H. destruct (d f); [discriminate|reflexivity].
    + intros w Hw. unfold writes in Hw. destruct ext, gen; cbn in Hw;
        repeat (destruct Hw as [<-|Hw]; [reflexivity|]); destruct Hw.
  - apply (fold_write_other (writes (mkOptions false ext gen) text)). rewrite W. exact Hi.
Qed.
Print Assumptions C42_no_existing_file_changes.
Definition empty_dir : dir := fun _ => None.
Example C42_example : exists d', generate_c_files (mkOptions false false true) (fun f => "text of " ++ f) empty_dir = Generated d' /\
  d' "Makefile" = Some "text of Makefile" /\ d' "target.c" = None.
Proof. eexists. split; [reflexivity|]. split; reflexivity. Qed.

(** With the binary option the two binary files are written without being
    checked: an existing one is lost. *)
Theorem C42_binary_files_overwritten_refuted : exists o text d d' c,
  generate_c_files o text d = Generated d' /\
  d "parameters.dat" = Some c /\ d' "parameters.dat" <> Some c /\
  d "test_dataset.dat" = Some c /\ d' "test_dataset.dat" <> Some c.
Proof.
  exists (mkOptions true false true), (fun _ => "new"),
    (set_file (set_file empty_dir "parameters.dat" "mine") "test_dataset.dat" "mine").
  eexists. exists "mine". split; [reflexivity|]. split; [reflexivity|]. split; [discriminate|]. split; [reflexivity|discriminate].
Qed.
Print Assumptions C42_binary_files_overwritten_refuted.

(** ** C52.  The documented form of an entry of custom_generation_functions is a
    list of (file name, function) pairs, the empty list disabling the category.
    It never generates anything; a pair (name, list of functions) does. *)
Definition documented_entry (l : list (string * list write)) : pyv := PSeq (map (fun p => PSeq [PStr (fst p); PFun (snd p)]) l).
Theorem C52_documented_custom_functions_refuted : forall l d,
  run_custom (documented_entry l) d = CustomValueError \/ run_custom (documented_entry l) d = CustomTypeError.
Proof. intros [|a [|b [|c l]]] d; cbn; auto. Qed.
Print Assumptions C52_documented_custom_functions_refuted.
Theorem C52_name_and_functions : forall f fs d, fs <> [] -> d f = None ->
  run_custom (PSeq [PStr f; PSeq (map PFun fs)]) d = CustomGenerated (fold_left do_write (concat fs) d).
Proof.
  intros f fs d Hne Hd. cbn [run_custom]. replace (truthy (PSeq (map PFun fs))) with true.
  2:{ destruct fs; [congruence|reflexivity]. }
  rewrite Hd. assert (H : forall d0, call_all (map PFun fs) d0 = Some (fold_left do_write (concat fs) d0)).
  { induction fs as [|w fs IH]; intros d0; [reflexivity|]. cbn [map call_all concat]. rewrite fold_left_app.
    destruct fs; [reflexivity|]. apply IH. discriminate. }
  rewrite H. reflexivity.
Qed.
Print Assumptions C52_name_and_functions.
Example C52_example : exists d', run_custom (PSeq [PStr "a.c"; PSeq [PFun [mkWrite "a.c" Append "x"]]]) empty_dir = CustomGenerated d' /\
  d' "a.c" = Some "x".
Proof. eexists. split; reflexivity. Qed.

(** The functions of an accepted entry that write to the announced file: their
    texts follow one another in that file, in the order of the list (files are
    opened for appending), and no other file changes. *)
Theorem C52_functions_append_in_order : forall f texts d, texts <> [] -> d f = None ->
  exists d', run_custom (PSeq [PStr f; PSeq (map (fun t => PFun [mkWrite f Append t]) texts)]) d = CustomGenerated d' /\
    d' f = Some (String.concat "" texts) /\ forall g, g <> f -> d' g = d g.
Proof.
  intros f texts d Hne Hd.
  pose proof (C52_name_and_functions f (map (fun t => [mkWrite f Append t]) texts) d) as H. rewrite map_map in H.
  eexists. split; [apply H; [destruct texts; [congruence|discriminate]|exact Hd]|]. clear H.
  assert (EC : concat (map (fun t => [mkWrite f Append t]) texts) = map (fun t => mkWrite f Append t) texts).
  { clear. induction texts as [|t ts IH]; [reflexivity|]. cbn [map concat]. rewrite IH. reflexivity. }
  rewrite EC. clear EC.
  assert (APP : forall a b c : string, ((a ++ b) ++ c = a ++ (b ++ c))%string).
  { induction a as [|x a IH]; intros b c; [reflexivity|]. cbn. rewrite IH. reflexivity. }
  assert (EE : forall a : string, (a ++ "" = a)%string) by (induction a as [|x a IH]; [reflexivity|cbn; rewrite IH; reflexivity]).
  assert (CAT : forall t ts, String.concat "" (t :: ts) = (t ++ String.concat "" ts)%string).
  { intros t [|t2 ts]; [cbn; rewrite EE; reflexivity|reflexivity]. }
  assert (G : forall ts c d0, d0 f = Some c ->
    fold_left do_write (map (fun t => mkWrite f Append t) ts) d0 f = Some (c ++ String.concat "" ts)%string /\
    forall g, g <> f -> fold_left do_write (map (fun t => mkWrite f Append t) ts) d0 g = d0 g).
  { induction ts as [|t ts IH]; intros c d0 H0.
    - cbn. rewrite EE. auto.
    - cbn [map fold_left]. destruct (IH (c ++ t)%string (do_write d0 (mkWrite f Append t))) as (I1 & I2).
      + unfold do_write, set_file. cbn. rewrite String.eqb_refl, H0. reflexivity.
      + rewrite I1, CAT, APP. split; [reflexivity|]. intros g Hg. rewrite I2 by exact Hg.
        unfold do_write, set_file. cbn. apply String.eqb_neq in Hg. rewrite Hg. reflexivity. }
  destruct texts as [|t ts]; [congruence|]. cbn [map fold_left].
  destruct (G ts t (do_write d (mkWrite f Append t))) as (I1 & I2).
  { unfold do_write, set_file. cbn. rewrite String.eqb_refl, Hd. reflexivity. }
  rewrite I1, CAT. split; [reflexivity|]. intros g Hg. rewrite I2 by exact Hg.
  unfold do_write, set_file. cbn. apply String.eqb_neq in Hg. rewrite Hg. reflexivity.
Qed.
Print Assumptions C52_functions_append_in_order.
Example C52_append_example : exists d', run_custom (PSeq [PStr "a.c"; PSeq (map (fun t => PFun [mkWrite "a.c" Append t]) ["x"; "y"])]) empty_dir = CustomGenerated d' /\
  d' "a.c" = Some "xy".
Proof. eexists. split; reflexivity. Qed.
