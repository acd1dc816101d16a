(** Where a process dies inside a cancellation. *)
From Verif Require Import SpecSoft WorldFacts BackendFacts JsonFacts.

Section cut.
  Context {M : Type} `{SM : Serde M} {SO : SerdeOk M}.
  Context (prof : profile).
  Context (sched : string → option (time → option time)).
  Context (name : string).
  Context (clock : nat → time).
  Notation h := (mem_h clock).
  Notation step := (sys_step prof sched name h).
  Notation stored := (@stored M SM).
  Notation qlist := (qlist name).

  Lemma crash_in_cancel (s : sys world M) id j n :
    alive s = true → stored (sw s) id = Some j → jid j = id → jstatus (ctx j) = Queued →
    let w := sw (step s (EvCrashIn (EvCancel id) n)).1 in
    ((n <= 2)%nat → (∀ x, qlist w x = qlist (sw s) x) ∧ ∀ k, stored w k = stored (sw s) k) ∧
    ((3 <= n <= 4)%nat →
       (∀ x, qlist w x = qlist (sw s) x) ∧ ∃ j', stored w id = Some j' ∧ jstatus (ctx j') = Canceled) ∧
    ((5 <= n)%nat →
       id ∉ qlist w Queued ∧ ∃ j', stored w id = Some j' ∧ jstatus (ctx j') = Canceled).
  Proof.
    intros Ha Hj Hid Hs. unfold sys_step. rewrite Ha. cbv zeta. cbn [fst sw].
    set (w0 := sw s) in *.
    set (j' := can j (now_ms clock w0)).
    assert (E : ∀ m, run_n h (S m) (ev_prog prof sched name (cfg s) (tasks s) (EvCancel id)) w0 =
      run_n h m (bind (bind (job_cancel j) (λ r, match r with Ok _ =>
         bind (do (QRemove (format_queue_name name Queued) id)) (λ r, match r with Ok _ => Ret (Ok tt) | Err e => Ret (Err e) end)
         | Err e => Ret (Err e) end)) (λ r, Ret (cfg s, tasks s, [] : list (job M), RUnit r : response M))) w0).
    { intros m.
      change (run_n h (S m) (ev_prog prof sched name (cfg s) (tasks s) (EvCancel id)) w0) with
        (run_n h m (bind (match stored w0 id with Some j => if is_queued j then
          bind (job_cancel j) (λ r, match r with Ok _ =>
         bind (do (QRemove (format_queue_name name Queued) id)) (λ r, match r with Ok _ => Ret (Ok tt) | Err e => Ret (Err e) end)
         | Err e => Ret (Err e) end) else Ret (Ok tt) | None => Ret (Ok tt) end) (λ r, Ret (cfg s, tasks s, [] : list (job M), RUnit r : response M))) w0).
      rewrite Hj. unfold is_queued. by rewrite Hs. }
    assert (H3 : (∀ x, qlist (w_put w0 j') x = qlist w0 x) ∧
      ∃ jx, stored (w_put w0 j') id = Some jx ∧ jstatus (ctx jx) = Canceled).
    { split; [intros x; apply qlist_put|]. exists (norm_job j'). split; [|done].
      rewrite stored_put. by rewrite bool_decide_true. }
    assert (H5 : id ∉ qlist (w_rem name (w_put w0 j') Queued id) Queued ∧
      ∃ jx, stored (w_rem name (w_put w0 j') Queued id) id = Some jx ∧ jstatus (ctx jx) = Canceled).
    { split; [|rewrite stored_rem; apply H3].
      rewrite qlist_rem, bool_decide_true by done. rewrite elem_of_list_filter. by intros [? _]. }
    destruct n as [|n]; [split_and!; intros; [done|lia|lia]|]. rewrite E.
    destruct n as [|[|[|[|n]]]].
    - split_and!; intros; [done|lia|lia].
    - split_and!; intros; [done|lia|lia].
    - split_and!; intros; [lia|exact H3|lia].
    - split_and!; intros; [lia|exact H3|lia].
    - split_and!; intros; [lia|lia|]. destruct n; exact H5.
  Qed.

  Lemma rerun_duplicates (s : sys world M) (j ex : job M) :
    alive s = true → stored (sw s) (jid j) = Some ex → jstatus (ctx ex) = Canceled →
    jid j ∈ qlist (sw s) Queued →
    qlist (sw (step s (EvEnqueue j new_re_run)).1) Queued = jid j :: qlist (sw s) Queued.
  Proof.
    intros Ha Hj Hs Hq. unfold sys_step. rewrite Ha. unfold commit. cbn [ev_prog]. rewrite run_bind.
    unfold run_with_config. rewrite run_bind, run_get. cbn beta iota. rewrite Hj.
    unfold is_running, is_done. rewrite Hs. cbn -[format_queue_name STORAGE_HASH mem_push mem_upsert].
    change (qlist (w_save (w_tick (w_push name (w_put (sw s) j) Queued (jid j)))
      (enq j (now_ms clock (w_put (sw s) j)))) Queued = jid j :: qlist (sw s) Queued).
    rewrite qlist_save, qlist_tick, qlist_push, bool_decide_true by done. by rewrite qlist_put.
  Qed.
End cut.
