(** The space that jobs take in the storage. *)
From Verif Require Import Spec SpecRace SpecSpace BackendFacts RaceCases RaceSpace SpaceCases LostCases Demo.

Section theorems.
  Context {M : Type} `{SM : Serde M} {SO : SerdeOk M}.
  Context (prof : nat → profile).
  Context (sched : nat → string → option (time → option time)).
  Context (name : nat → string).
  Context (clock : nat → nat → time).
  Notation race_after := (race_after prof sched name clock).
  Implicit Types xs ys : list (race_event M).

  (** C88: whatever processes do, overlapping, with failing calls and deaths: every record stands under the
      one hash of the library and under the id of a job that somebody submitted, and every entry is the id
      of such a job, in a list whose name is made of a queue's name and a status. *)
  Theorem C88_keys n xs :
    let w := r_world (race_after n xs) in
    (∀ hash key v, mem_sget (st w) hash key = Some v → hash = STORAGE_HASH ∧ submitted_id xs key) ∧
    (∀ l x, x ∈ default [] (queues (st w) !! l) →
      (∃ i s, l = format_queue_name (name i) s) ∧ submitted_id xs x).
  Proof. exact (race_space prof sched name clock n xs). Qed.

  (** C88: all lists together have at most one entry for each submission, retry and poll of a task that was
      begun: no step of these adds two, and no other step adds any. *)
  Theorem C88_entries n xs :
    (entries (r_world (race_after n xs)) <= added xs)%nat.
  Proof. exact (race_entries prof sched name clock n xs). Qed.

  (** C88: a record, once there, is never removed. *)
  Theorem C88_records_stay n xs ys hash key :
    mem_sget (st (r_world (race_after n xs))) hash key ≠ None →
    mem_sget (st (r_world (race_after n (xs ++ ys)))) hash key ≠ None.
  Proof. exact (recorded_after prof sched name clock n xs ys hash key). Qed.
End theorems.
Print Assumptions C88_keys.
Print Assumptions C88_entries.
Print Assumptions C88_records_stay.

(** C88: the number of ids bounds nothing.  Whatever the job, with no schedule and no retry: submitting it
    over and over, each time with the same id and each time after it has been executed, leaves one more entry
    in the list of finished jobs for each time.  Nothing in the library ever removes an entry from it. *)
Theorem C88_bounded_by_ids_refuted {M} `{SM : Serde M} {SO : SerdeOk M} prof sched name clock (j : job M) (d : M) :
  jtype (ctx j) = Normal → jretry (ctx j) = None →
  ∀ bound, ∃ es : list (event M),
    (∀ e, e ∈ es → match e with EvEnqueue j' _ => jid j' = jid j | _ => True end) ∧
    let s := after prof sched name clock es in
    qlist name (sw s) Finished = repeat (jid j) bound ∧ (bound <= entries (sw s))%nat.
Proof. exact (one_id_grows prof sched name clock j d). Qed.
Print Assumptions C88_bounded_by_ids_refuted.

(** Two processes that overlap (the case of C87), two jobs: two submissions and four polls begun, two
    entries. *)
Example C88_case :
  let r := two_after 2 (cut_cancel ++ cut_rest) in
  submitted_id (cut_cancel ++ cut_rest) "a"%string ∧
  (match mem_sget (st (r_world r)) STORAGE_HASH "a" with Some _ => true | None => false end) = true ∧
  default [] (queues (st (r_world r)) !! format_queue_name "q" Finished) = ["a"%string] ∧
  entries (r_world r) = 2%nat ∧ added (cut_cancel ++ cut_rest) = 6%nat.
Proof.
  cbv zeta. split; [|split; [|split; [|split]]].
  - exists (demo_job "a"%string 1). split; [|done].
    exists (RBegin 1 (EvEnqueue (demo_job "a"%string 1) new_re_run) 0), new_re_run. split; [|done].
    apply elem_of_list_In. unfold cut_cancel, cut_sub. cbn. tauto.
  - by vm_compute.
  - by vm_compute.
  - by vm_compute.
  - by vm_compute.
Qed.

(** One id, executed three times. *)
Example C88_grow_case :
  let j := demo_job "a"%string 1 in
  jtype (ctx j) = Normal ∧ jretry (ctx j) = None ∧
  let s := after Release (λ _, None) "q" (λ n, (Z.of_nat n * 1000000)%Z) (EvStart :: concat (repeat (once_more j 1) 3)) in
  qlist "q" (sw s) Finished = ["a"; "a"; "a"]%string ∧ entries (sw s) = 3%nat ∧ length (runs s) = 3%nat.
Proof. cbv zeta. split; [done|]. split; [done|]. split; [by vm_compute|]. split; by vm_compute. Qed.
