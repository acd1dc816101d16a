(** Endless executions of a process with its callers. *)
From Verif Require Export SpecClient.

Section spec.
  Context {M : Type} `{SM : Serde M}.
  Context (prof : profile).
  Context (sched : string → option (time → option time)).
  Context (name : string).
  Context {W : Type} (h : handler W).
  Context (w : W).
  Implicit Types fe : nat → fevent M.

  (** The process after the first [n] of endlessly many events. *)
  Definition instant fe (n : nat) : front M W := front_run prof sched name h (front_init w) (map fe (seq 0 n)).

  (** The call has returned, or has been lost with the process or with AJ. *)
  Definition over (c : cstate M) : Prop := c_at c = Gone ∨ ∃ r to, c_at c = Returned r to.

  (** A thread that is in a call goes on again, an actor that has a message reads its mailbox again, a queue
      that is registered gets its thread. *)
  Definition serving fe : Prop :=
    (∀ n i c, cs (instant fe n) !! i = Some c → ¬ over c → ∃ m, (n <= m)%nat ∧ fe m = FGo i) ∧
    (∀ n, aj_box (instant fe n) ≠ [] → ∃ m, (n <= m)%nat ∧ fe m = FAj) ∧
    (∀ n, q_box (instant fe n) ≠ [] → ∃ m, (n <= m)%nat ∧ fe m = FHandle) ∧
    (∀ n, known (instant fe n) = true → begun (instant fe n) = false → ∃ m, (n <= m)%nat ∧ fe m = FBegin).

  (** Nothing dies: not the process, not AJ, not the queue. *)
  Definition dies (x : fevent M) : bool := match x with FCrash | FCrashIn _ _ => true | _ => false end.
  Definition lasting fe : Prop :=
    ∀ n, dies (fe n) = false ∧ aj_up (instant fe n) = true ∧
      (begun (instant fe n) = true → alive (q (instant fe n)) = true).

  (** The timer of a started queue fires again, and its tasks are polled again (user code ends). *)
  Definition working fe : Prop :=
    (∀ n, begun (instant fe n) = true → ∃ m, (n <= m)%nat ∧ fe m = FOwn EvTick) ∧
    (∀ n t, t ∈ tasks (q (instant fe n)) →
      ∃ m i u t', (n <= m)%nat ∧ fe m = FOwn (EvTask i u) ∧
        tasks (q (instant fe m)) !! i = Some t' ∧ tid t' = tid t).

  (** Calls that submit or cancel the job [id]. *)
  Definition meddles (id : string) (c : call M) : Prop :=
    match c with
    | CRun j _ | CJust j => jid j = id
    | CUpdate i _ cx => i = id ∨ ∃ x, cx = Some x ∧ job_id x = id
    | CCancel i => i = id
    | _ => False
    end.
End spec.
(** When the job is due, as seen by its submitter. *)
Definition comes_due {M} (clock : nat → time) (j : job M) : Prop :=
  match jtype (ctx j) with
  | Normal => True
  | ScheduledAt t => ∃ k0, ∀ k, (k0 <= k)%nat → t < clock k
  | Cron _ slot n cc =>
      (∃ k0, ∀ k, (k0 <= k)%nat → slot <= clock k) ∧ (∀ m, max_repeat cc = Some m → n <= m) ∧ end_at cc = None
  end.
