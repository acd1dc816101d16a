(** A job that is never taken, since others arrive in the middle of ticks. *)
From Verif Require Import Spec SpecRace SpecLocked BackendFacts RaceCases LockedCases Demo.

(** The clocks stand still. *)
Definition still (i k : nat) : time := 5000000.
Notation sstep := (race_step (λ _, Debug) (λ _, demo_sched) (λ _, "q"%string) (λ i, mem_h (still i))).
Notation safter := (race_after (M := Z) (λ _, Debug) (λ _, demo_sched) (λ _, "q"%string) still 2).
Notation sended := (ended_free_ticks (λ _, Debug) (λ _, demo_sched) "q" still).

(** Process 0, with one slot, ticks and takes [x]; before it turns the list, process 1 submits [y]; then
    process 0 executes [x]. *)
Definition half (x y : string) : list (race_event Z) :=
  RBegin 0 EvTick 0 :: go 0 11 ++ RBegin 1 (EvEnqueue (demo_job y 1) new_re_run) 0 :: go 1 9
  ++ go 0 4 ++ concat (repeat (RBegin 0 (EvTask 0 (demo_ok 1)) 0 :: go 0 9) 4).
Definition round : list (race_event Z) := half "x" "y" ++ half "y" "x".
Definition starve_pre : list (race_event Z) :=
  RBegin 0 EvStart 0 :: go 0 9 ++ RBegin 1 EvStart 0 :: go 1 9
  ++ RBegin 0 (EvConfig (WqConfig (100 * 1000000) 1)) 0 :: go 0 1
  ++ RBegin 1 (EvEnqueue (demo_job "x" 1) new_re_run) 0 :: go 1 9
  ++ RBegin 1 (EvEnqueue (demo_job "c" 3) new_re_run) 0 :: go 1 9.

Definition rounds (n : nat) : list (race_event Z) := concat (repeat round n).

(** *** Checks of all states *)
Fixpoint swalk (P : race Z world → bool) (r : race Z world) (xs : list (race_event Z)) : bool :=
  P r && match xs with [] => true | x :: xs' => swalk P (sstep r x) xs' end.
Lemma swalk_ok P xs r ys zs : swalk P r xs = true → xs = ys ++ zs → P (fold_left sstep ys r) = true.
Proof.
  revert r xs. induction ys as [|y ys IH]; intros r xs H E.
  - destruct xs; cbn in H; by apply andb_true_iff in H as [H _].
  - destruct xs as [|x xs]; [done|]. injection E as -> E. cbn in H. apply andb_true_iff in H as [_ H].
    by apply (IH _ xs).
Qed.
Lemma swalk_app P xs ys r :
  swalk P r xs = true → swalk P (fold_left sstep xs r) ys = true → swalk P r (xs ++ ys) = true.
Proof.
  revert r. induction xs as [|x xs IH]; intros r H1 H2; [done|]. cbn in *. apply andb_true_iff in H1 as [-> H1]. cbn. by apply IH.
Qed.
(** The process that is in a tick with a free slot at the end. *)
Fixpoint track (f : option nat) (r : race Z world) (xs : list (race_event Z)) : option nat :=
  match xs with
  | [] => f
  | x :: xs' =>
      let next f' := track f' (sstep r x) xs' in
      match x with
      | RBegin _ _ _ => next f
      | RDie i => next (if bool_decide (f = Some i) then None else f)
      | RCall i _ =>
          if free_now "q" r i then next (Some i)
          else if bool_decide (f = Some i) then
            match r_procs r !! i with
            | Some (Proc _ _ _ (Some (_, Eff _ _))) => next f
            | _ => next None
            end
          else next f
      end
  end.
Lemma ended_app xs ys f r : sended f r (xs ++ ys) = (sended f r xs + sended (track f r xs) (fold_left sstep xs r) ys)%nat.
Proof.
  revert f r. induction xs as [|x xs IH]; intros f r; [done|]. cbn [app ended_free_ticks track fold_left]. destruct x as [i e n|i fl|i].
  - apply IH.
  - destruct (free_now "q" r i); [apply IH|]. case_bool_decide; [|apply IH].
    destruct (r_procs r !! i) as [[cfg ts al [[e [| | |X e' g]]|]]|]; rewrite ?IH; done.
  - apply IH.
Qed.

(** *** Equality of maps, by their trees *)
Definition tree {A} (m : gmap string A) : pmap.Pmap_raw A := pmap.pmap_car (gmap_car m).
Lemma tree_inj {A} (m m' : gmap string A) : tree m = tree m' → m = m'.
Proof.
  destruct m as [[t p] p'], m' as [[t' q] q']. cbn. intros <-. assert (p = q) as <- by apply proof_irrel.
  assert (p' = q') as <- by apply proof_irrel. done.
Qed.
Lemma trees_inj {A} (m m' : gmap string (gmap string A)) : tree (tree <$> m) = tree (tree <$> m') → m = m'.
Proof.
  intros H%tree_inj. apply map_eq. intros i. apply (f_equal (.!! i)) in H. rewrite !lookup_fmap in H.
  destruct (m !! i), (m' !! i); try done. cbn in H. by injection H as ->%tree_inj.
Qed.
Lemma race_ext (r : race Z world) q s p :
  tree (queues (st (r_world r))) = tree q → tree (tree <$> storages (st (r_world r))) = tree (tree <$> s) → r_procs r = p →
  r = Race (World (Store q s) (reads (r_world r)) (log (r_world r))) p (r_runs r) (r_answers r).
Proof. destruct r as [[[q' s'] rd lg] p' ru an]. cbn. by intros ->%tree_inj ->%trees_inj ->. Qed.

(** *** One round *)
Definition starve_ys : list (race_event Z) := starve_pre ++ round.
Definition base : race Z world := safter starve_ys.
Lemma base_def : safter starve_ys = base.
Proof. unfold base. reflexivity. Qed.
Lemma base_eq : fold_left sstep starve_ys (race_init world_empty 2) = base.
Proof. unfold base, race_after, race_run. reflexivity. Qed.
Definition sst (fl : list string) (rd : nat) (lg : list msg) (ru : list (nat * job Z)) (an : list (nat * event Z * response Z)) : race Z world :=
  let s := st (r_world base) in
  Race (World (Store (<[format_queue_name "q" Finished := fl]> (queues s)) (storages s)) rd lg) (r_procs base) ru an.
Definition cyc (r : race Z world) : Prop := ∃ fl rd lg ru an, r = sst fl rd lg ru an.
Definition checks (r : race Z world) : bool :=
  apart (λ e, is_pick e || is_cancel e) r && waits_due "c" r && bool_decide ("c"%string ∈ qlist "q" (r_world r) Queued)
  && (length (qlist "q" (r_world r) Queued) <=? 3)%nat && forallb is_up (r_procs r).
Lemma cyc_round r :
  cyc r → cyc (fold_left sstep round r) ∧ swalk checks r round = true ∧ sended None r round = 2%nat ∧ track None r round = None.
Proof.
  intros (fl & rd & lg & ru & an & ->). split; [|split; [|split]].
  - exists ("y" :: "x" :: fl)%string. do 4 eexists. apply race_ext; vm_compute; reflexivity.
  - vm_compute. reflexivity.
  - vm_compute. reflexivity.
  - vm_compute. reflexivity.
Qed.
Lemma cyc_base : cyc base.
Proof. exists ["y"; "x"]%string. do 4 eexists. apply race_ext; vm_compute; reflexivity. Qed.
Lemma cyc_rounds n r :
  cyc r → swalk checks r (rounds n) = true ∧ sended None r (rounds n) = (2 * n)%nat.
Proof.
  revert r. induction n as [|n IH]; intros r Hr.
  - destruct (cyc_round r Hr) as (_ & H & _). split; [|done]. change (rounds 0) with (@nil (race_event Z)). cbn.
    destruct round; cbn in H; by apply andb_true_iff in H as [-> _].
  - destruct (cyc_round r Hr) as (H1 & H2 & H3 & H4). destruct (IH _ H1) as [I1 I2].
    change (rounds (S n)) with (round ++ rounds n). split; [by apply swalk_app|].
    rewrite ended_app, H3, H4, I2. lia.
Qed.

(** *** The history *)
Lemma starve_locked n : always_locked (λ _, Debug) (λ _, demo_sched) "q" still 2 (starve_ys ++ rounds n).
Proof.
  intros ys zs E.
  assert (swalk (apart (λ e, is_pick e || is_cancel e)) (race_init world_empty 2) (starve_ys ++ rounds n) = true) as H.
  { apply swalk_app; [by vm_compute|]. destruct (cyc_rounds n base cyc_base) as [H _]. rewrite base_eq.
    revert H. generalize (rounds n) base. intros xs. induction xs as [|x xs IH]; intros r H; cbn in *;
      apply andb_true_iff in H as [H1 H2]; unfold checks in H1; rewrite !andb_true_iff in H1; destruct H1 as [[[[-> _] _] _] _]; [done|].
    cbn. by apply IH. }
  by apply apart_locked, (swalk_ok _ _ _ _ _ H E).
Qed.
Lemma after_ys zs : safter (starve_ys ++ zs) = fold_left sstep zs base.
Proof. rewrite <-base_eq. unfold race_after, race_run. apply fold_left_app. Qed.
Lemma no_trouble : Forall (λ x, match x with RCall _ f => f = FOk | RDie _ => False | RBegin _ _ _ => True end) (starve_ys ++ round).
Proof.
  unfold starve_ys, starve_pre, round, half, go. cbn [app repeat concat]. repeat (apply List.Forall_cons; [done|]). constructor.
Qed.
Lemma cyc_stays r n zs zs' :
  cyc r → rounds n = zs ++ zs' → let r' := fold_left sstep zs r in
  "c"%string ∈ qlist "q" (r_world r') Queued ∧ due_now (M := Z) still "c" (r_world r') ∧
  (length (qlist "q" (r_world r') Queued) <= 3)%nat ∧ Forall up (r_procs r').
Proof.
  intros Hr E. cbv zeta. destruct (cyc_rounds n r Hr) as [H1 _]. pose proof (swalk_ok _ _ _ _ _ H1 E) as H. clear H1 E Hr.
  revert H. generalize (fold_left sstep zs r). clear r. intros r H. unfold checks in H. rewrite !andb_true_iff in H.
  destruct H as [[[[_ Hw] Hc] Hl] Hu]. apply waits_due_ok with (clk := still) in Hw as [Hd _].
  split; [by apply bool_decide_eq_true in Hc|]. split; [done|]. split; [by apply Nat.leb_le|].
  apply list.Forall_forall. intros p Hp. apply is_up_ok. rewrite forallb_forall in Hu. by apply Hu, elem_of_list_In.
Qed.
Lemma starves n :
  always_locked (λ _, Debug) (λ _, demo_sched) "q" still 2 (starve_ys ++ rounds n) ∧
  Forall (λ x, match x with RCall _ f => f = FOk | RDie _ => False | RBegin _ _ _ => True end) (starve_ys ++ rounds n) ∧
  sended None (safter starve_ys) (rounds n) = (2 * n)%nat ∧
  ∀ zs zs', rounds n = zs ++ zs' → let r := safter (starve_ys ++ zs) in
    "c"%string ∈ qlist "q" (r_world r) Queued ∧ due_now (M := Z) still "c" (r_world r) ∧
    (length (qlist "q" (r_world r) Queued) <= 3)%nat ∧ Forall up (r_procs r).
Proof.
  split; [apply starve_locked|]. split.
  { pose proof no_trouble as H. apply Forall_app in H as [Hs Hr]. apply Forall_app. split; [done|]. clear -Hr.
    induction n as [|n IH]; [constructor|]. change (rounds (S n)) with (round ++ rounds n). by apply Forall_app. }
  split; [rewrite base_def; apply (cyc_rounds n base cyc_base)|].
  intros zs zs' E. rewrite after_ys. exact (cyc_stays base n zs zs' cyc_base E).
Qed.
