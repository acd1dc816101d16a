(** One id, submitted again and again, takes ever more space. *)
From Verif Require Import Spec SpecSpace JsonFacts BackendFacts WorldFacts MicroFacts LifeFacts SubmitFacts PickFacts StarveFacts RaceSpace.

Section grow.
  Context {M : Type} `{SM : Serde M} {SO : SerdeOk M}.
  Context (prof : profile).
  Context (sched : string → option (time → option time)).
  Context (name : string).
  Context (clock : nat → time).
  Notation h := (mem_h clock).
  Notation qlist := (qlist name).
  Notation stored := (@stored M SM).
  Notation sys := (sys world M).
  Notation step := (sys_step prof sched name h).
  Notation go := (sys_run prof sched name h).
  (** A job to be executed once, and user code that succeeds. *)
  Context (j0 : job M) (d : M).
  Context (Hty : jtype (ctx j0) = Normal) (Hre : jretry (ctx j0) = None).
  Notation ok := (UserResult d false (DefaultRetryAt false)).
  Definition once_more : list (event M) :=
    [EvEnqueue j0 new_re_run; EvTick; EvTask 0 ok; EvTask 0 ok; EvTask 0 ok; EvTask 0 ok].
  Definition quiet (l : list string) (s : sys) : Prop :=
    alive s = true ∧ tasks s = [] ∧ cfg s = wq_config_default ∧
    qlist (sw s) Queued = [] ∧ qlist (sw s) Running = [] ∧ qlist (sw s) Finished = l ∧
    match stored (sw s) (jid j0) with Some j => is_done j = true | None => True end.
  Ltac poll t :=
    match goal with |- context [(step (Sys ?w ?c ?ts ?a ?r) (EvTask 0 ?u)).1] =>
      rewrite (step_task prof sched name clock (Sys w c ts a r) 0 t u) by done
    end.
  Lemma once_more_ok l s : quiet l s → quiet (jid j0 :: l) (go s once_more).
  Proof using SO Hty Hre.
    intros (Ha & Ht & Hc & Hq & Hr & Hf & Hs). unfold once_more. cbn [sys_run fold_left].
    rewrite (step_enqueue prof sched name clock s j0 new_re_run Ha). cbn [fst].
    set (w1 := do_run name clock (sw s) j0 new_re_run).
    assert (qlist w1 Queued = [jid j0] ∧ qlist w1 Running = [] ∧ qlist w1 Finished = l ∧
      stored w1 (jid j0) = Some (norm_job (enq j0 (now_ms clock (sw s))))) as (Hq1 & Hr1 & Hf1 & Hs1).
    { assert (∀ w, qlist w Queued = [] → qlist w Running = [] → qlist w Finished = l → reads w = reads (sw s) →
        qlist (do_enqueue name clock w j0) Queued = [jid j0] ∧ qlist (do_enqueue name clock w j0) Running = [] ∧
        qlist (do_enqueue name clock w j0) Finished = l ∧
        stored (do_enqueue name clock w j0) (jid j0) = Some (norm_job (enq j0 (now_ms clock (sw s))))) as H.
      { intros w E1 E2 E3 E4. unfold do_enqueue. rewrite !qlist_save, !qlist_tick, !qlist_push.
        split; [case_bool_decide; congruence|]. split; [case_bool_decide; congruence|]. split; [case_bool_decide; congruence|].
        rewrite stored_save, bool_decide_eq_true_2 by done. unfold now_ms. by rewrite E4. }
      subst w1. unfold do_run. destruct (stored (sw s) (jid j0)) as [ex|]; [|by apply H].
      rewrite Hs. cbn [re_run new_re_run andb].
      destruct (override_data new_re_run && negb (is_running ex)); [|by apply H].
      apply H; rewrite ?qlist_put; done. }
    clearbody w1. set (s1 := Sys w1 _ _ _ _).
    rewrite (step_tick prof sched name clock s1) by done. cbv zeta. unfold do_pick. subst s1. cbn [sw cfg tasks runs].
    rewrite Hc, Hr1, Hq1. cbn [length max_processing_jobs wq_config_default Nat.leb Nat.sub].
    set (j1 := norm_job (enq j0 (now_ms clock (sw s)))) in *.
    set (w1' := w_tick w1). set (j2 := prc j1 (now_ms clock w1')).
    set (w2 := w_move name (w_save (w_tick w1') j2) Queued Running).
    assert (scan_loop prof name clock 2 20 [] (wrap32 (Z.of_nat 1)) w1 = (w2, [j2], Done tt)) as ->.
    { cbn [scan_loop]. rewrite Hq1. cbn [rev app]. change (take BATCH [jid j0]) with [jid j0]. cbn [length].
      change (wrap32 (Z.of_nat 1) - Z.of_nat 1) with 0. assert (i32_norm prof 0 = Some 0) as -> by by destruct prof.
      cbn [scan_batch]. rewrite Hs1. assert (is_ready j1 (clock (reads w1)) = true) as ->.
      { unfold is_ready. assert (jtype (ctx j1) = Normal) as ->; [|done]. subst j1. cbn. by rewrite Hty. }
      done. }
    cbn [fst snd].
    assert (qlist w2 Queued = [] ∧ qlist w2 Running = [jid j0] ∧ qlist w2 Finished = l) as (Hq2 & Hr2 & Hf2).
    { assert (qlist (w_save (w_tick w1') j2) Queued = [] ++ [jid j0]) as E by (rewrite qlist_save, !qlist_tick; exact Hq1).
      subst w2. rewrite !(qlist_pick name _ _ _ _ E). rewrite !qlist_save, !qlist_tick. subst w1'. rewrite !qlist_tick. by rewrite Hr1, Hf1. }
    assert (jid j2 = jid j0) as Hid by by subst j2.
    assert (jtype (ctx j2) = Normal) as Hty2 by (subst j2 j1; cbn; rewrite Hty; reflexivity).
    assert (jretry (ctx j2) = None) as Hre2 by (subst j2 j1; cbn; rewrite Hre; reflexivity).
    assert (jstatus (ctx j2) = Running) as Hst2 by by subst j2.
    clearbody j2 w2. clear dependent w1. clear j1 Hq Hr Hf Hs. rewrite Ht. cbn [app map].
    assert (is_cancelled j2 = false) as Hcan by (unfold is_cancelled; rewrite Hst2; by apply bool_decide_eq_false_2).
    poll (spawn j2).
    cbn [spawn t_phase t_orig t_job sw cfg tasks runs list_insert insert].
    poll (Task j2 j2 Hooked).
    cbn [spawn t_phase t_orig t_job sw cfg tasks runs list_insert insert].
    poll (Task j2 (bump j2) InUser).
    cbn [spawn t_phase t_orig t_job sw cfg tasks runs list_insert insert ur_data].
    poll (Task j2 (set_data (bump j2) d) AfterHook).
    cbn [spawn t_phase t_orig t_job sw cfg tasks runs list_insert insert].
    set (w3 := w_send (w_send w2 _) _). set (j3 := set_data (bump j2) d).
    assert (judge prof sched clock (reads w3) j3 ok = (S (reads w3), VFinished j3)) as Ej.
    { unfold judge. assert (jretry (ctx j3) = None) as -> by done. unfold finish_of, tick_of.
      assert (jtype (ctx j3) = Normal) as -> by done. done. }
    unfold do_tail. rewrite !Ej. cbn [fst snd do_verdict].
    unfold do_finish. assert (jid j3 = jid j0) as Hid3 by done. rewrite Hid3. unfold quiet. cbn [alive tasks cfg sw].
    assert (∀ x, qlist (w_reads w3 (S (reads w3))) x = qlist w2 x) as Hw3 by done.
    rewrite !qlist_push, !qlist_save, !qlist_tick, !qlist_rem, !Hw3, Hq2, Hr2, Hf2.
    split; [done|]. split; [done|]. split; [done|].
    split; [by repeat (rewrite bool_decide_eq_false_2 by done)|]. split.
    { rewrite bool_decide_eq_false_2 by done. rewrite bool_decide_eq_true_2 by done.
      by rewrite filter_cons_False by (intros H; by apply H). }
    split; [by rewrite bool_decide_eq_true_2, bool_decide_eq_false_2 by done|].
    rewrite stored_push, stored_save, bool_decide_eq_true_2 by done.
    unfold is_done. cbn. by rewrite bool_decide_eq_true_2.
  Qed.
  Lemma once_more_n n l s : quiet l s → quiet (repeat (jid j0) n ++ l) (go s (concat (repeat once_more n))).
  Proof using SO Hty Hre.
    revert l s. induction n as [|n IH]; intros l s H; [done|].
    cbn [repeat concat]. unfold sys_run. rewrite fold_left_app. fold (go s once_more).
    fold (go (go s once_more) (concat (repeat once_more n))).
    apply once_more_ok, IH in H. rewrite repeat_cons, <-app_assoc. exact H.
  Qed.
  Lemma grows n :
    let s := after prof sched name clock (EvStart :: concat (repeat once_more n)) in
    qlist (sw s) Finished = repeat (jid j0) n ∧ (n <= entries (sw s))%nat.
  Proof using SO Hty Hre.
    intros s. assert (quiet [] (go (sys_init world_empty) [EvStart])) as H0.
    { by repeat split. }
    apply (once_more_n n) in H0. rewrite app_nil_r in H0. destruct H0 as (_ & _ & _ & _ & _ & Hf & _).
    split; [exact Hf|].
    change (go (go (sys_init world_empty) [EvStart]) (concat (repeat once_more n))) with s in Hf. clearbody s.
    unfold entries. fold (ent (queues (st (sw s)))). rewrite (ent_delete _ (format_queue_name name Finished)).
    unfold Spec.qlist in Hf. rewrite Hf, repeat_length. lia.
  Qed.
End grow.

Lemma one_id_grows {M} `{SM : Serde M} {SO : SerdeOk M} prof sched name clock (j : job M) (d : M) :
  jtype (ctx j) = Normal → jretry (ctx j) = None →
  ∀ bound, ∃ es : list (event M),
    (∀ e, e ∈ es → match e with EvEnqueue j' _ => jid j' = jid j | _ => True end) ∧
    let s := after prof sched name clock es in
    qlist name (sw s) Finished = repeat (jid j) bound ∧ (bound <= entries (sw s))%nat.
Proof.
  intros Hty Hre n. exists (EvStart :: concat (repeat (once_more j d) n)). split; [|by apply grows].
  intros e [->|He]%elem_of_cons; [done|]. apply elem_of_list_In, in_concat in He as (l & Hl & He).
  apply repeat_spec in Hl as ->. cbn in He. naive_solver.
Qed.
