(** Waiting lists of at most 20 ids: every waiting job is started, however many arrive. *)
From Verif Require Import SpecShort SpecLive ShortFacts ShortLive HistFacts Demo PropPick PropLive.

Section theorems.
  Context {M : Type} `{SM : Serde M} {SO : SerdeOk M}.
  Context (prof : profile).
  Context (sched : string → option (time → option time)).
  Context (name : string).
  Context (clock : nat → time).
  Notation after := (after prof sched name clock).
  Notation moment := (moment prof sched name clock).
  Notation qlist := (qlist name).
  Notation stored := (@stored M SM).

  (** C15.  While no tick finds more than 20 waiting ids, a waiting job that is due is started before
      the ticks have found more free slots than there are older waiting ids; nothing is assumed about
      the number of arrivals. *)
  Theorem C15_short_lists es0 es id j :
    let s := after es0 in
    ok_hist prof sched name clock initial (es0 ++ es) →
    id ∈ qlist (sw s) Queued → stored (sw s) id = Some j →
    (∀ k, (reads (sw s) <= k)%nat → due j (clock k)) → Forall (λ e, ¬ submits id e ∧ e ≠ EvCancel id) es →
    short_lists prof sched name clock s es →
    (behind id (qlist (sw s) Queued) < offered prof sched name clock s es)%nat →
    ∃ es1 es2, es = es1 ++ es2 ∧ id ∈ qlist (sw (after (es0 ++ es1))) Running.
  Proof. exact (short_no_starvation prof sched name clock es0 es id j). Qed.

  (** C69.  In an endless execution as in [C69_fair_progress], with any number of arrivals, as long as
      no tick from [n0] on finds more than 20 waiting ids. *)
  Theorem C69_short_lists (ev : nat → event M) n0 id j :
    healthy prof sched name clock ev → ticking ev → polling prof sched name clock ev →
    id ∈ qlist (sw (moment ev n0)) Queued → stored (sw (moment ev n0)) id = Some j →
    (∃ k0, ∀ k, (k0 <= k)%nat → due j (clock k)) →
    (∀ n, (n0 <= n)%nat → ¬ submits id (ev n) ∧ ev n ≠ EvCancel id) →
    (∀ n, (n0 <= n)%nat → ev n = EvTick → (length (qlist (sw (moment ev n)) Queued) <= 20)%nat) →
    ∃ n1 n2, (n0 <= n1 <= n2)%nat ∧
      (length (runs_of id (moment ev n0)) < length (runs_of id (moment ev n1)))%nat ∧
      tasks_of id (moment ev n2) = [].
  Proof. intros H1 H2 H3. exact (short_fair prof sched name clock ev H1 H2 H3 n0 id j). Qed.
End theorems.

(** One slot; "b" waits behind "a"; before every tick a job arrives. *)
Definition short_begin : list (event Z) :=
  [EvStart; EvConfig (WqConfig 1 1); EvEnqueue (demo_job "a" 1) new_re_run; EvEnqueue (demo_job "b" 1) new_re_run].
Definition short_round (id : string) : list (event Z) :=
  EvEnqueue (demo_job id 1) new_re_run :: EvTick :: replicate 6 (EvTask 0 (demo_ok 1)).
Definition short_es : list (event Z) := short_round "c" ++ short_round "d" ++ short_round "e".
Lemma short_case_lists :
  short_lists Debug demo_sched "q" demo_clock (demo_after short_begin) short_es.
Proof.
  unfold short_es, short_round. cbn -[demo_after short_begin sys_step qlist].
  split_and!; try done; intros H; try (destruct H as [H|H]; discriminate H); apply Nat.leb_le; by vm_compute.
Qed.
Example C15_short_case :
  qlist "q" (sw (demo_after short_begin)) Queued = ["b"; "a"] ∧
  behind "b" ["b"; "a"] = 1%nat ∧
  offered Debug demo_sched "q" demo_clock (demo_after short_begin) short_es = 3%nat ∧
  arrivals Debug demo_sched "q" demo_clock (demo_after short_begin) short_es = 3%nat ∧
  free_ticks Debug demo_sched "q" demo_clock (demo_after short_begin) short_es = 3%nat ∧
  map jid (runs (demo_after (short_begin ++ short_es))) = ["a"; "b"; "c"].
Proof. by vm_compute. Qed.
Example C15_short_history :
  ok_hist Debug demo_sched "q" demo_clock initial (short_begin ++ short_es) ∧
  Forall (λ e, ¬ submits "b" e ∧ e ≠ EvCancel "b") short_es.
Proof.
  split; [apply plain_ok; repeat constructor|].
  unfold short_es, short_round; cbn [app replicate]. rewrite !list.Forall_cons. split_and!; try done; by intros [].
Qed.

(** The execution of C69_case meets the hypotheses. *)
Lemma endless_short n : (1 <= n)%nat → (length (qlist "q" (sw (at_moment n)) Queued) <= 20)%nat.
Proof.
  intros Hn. destruct (decide (n < 15)%nat) as [Hl|Hl].
  - assert (forallb (λ n, Nat.leb (length (qlist "q" (sw (at_moment n)) Queued)) 20) (seq 0 15) = true) as H by by vm_compute.
    rewrite forallb_forall in H. specialize (H n). rewrite <-elem_of_list_In, elem_of_seq in H.
    apply Nat.leb_le, H. lia.
  - destruct (endless_idle n ltac:(lia)) as (_&_&_&E). unfold demo_after in *. rewrite E. cbn. lia.
Qed.
Example C69_short_case :
  ∃ n1 n2, (1 <= n1 <= n2)%nat ∧
    (length (runs_of "a" (at_moment 1)) < length (runs_of "a" (at_moment n1)))%nat ∧ tasks_of "a" (at_moment n2) = [].
Proof.
  destruct C69_case as ((j & Hj & H1) & H2 & _ & H3 & _).
  apply (C69_short_lists Debug demo_sched "q" demo_clock endless 1 "a" j C69_healthy C69_ticking C69_polling); try done.
  - rewrite H2. set_solver.
  - intros n Hn _. by apply endless_short.
Qed.

Print Assumptions C15_short_lists.
Print Assumptions C69_short_lists.
