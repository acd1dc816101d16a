(** The order of starting, for waiting lists of any length. *)
From Verif Require Import Spec HistFacts OrderFacts Demo.

Section theorems.
  Context {M : Type} `{SM : Serde M} {SO : SerdeOk M}.
  Context (prof : profile).
  Context (sched : string → option (time → option time)).
  Context (name : string).
  Context (clock : nat → time).
  Notation after := (after prof sched name clock).
  Notation ok_hist := (ok_hist prof sched name clock).
  Notation qlist := (qlist name).
  Notation stored := (@stored M SM).

  (** C55.  The waiting list is read from its back, the end at which the oldest id is; [rdy] says
      which of the waiting jobs are due (a job whose due time passes in the middle of the tick is
      covered by C12).  The [free_slots] oldest due ids are started, oldest first.  The ids that stay are kept
      in order up to a rotation. *)
  Theorem C55_tick_order (rdy : string → bool) (es : list (event M)) :
    let s := after es in let s' := after (es ++ [EvTick]) in
    ok_hist initial es → alive s = true →
    Z.of_nat (length (qlist (sw s) Queued)) <= i32_max →
    (∀ id j, id ∈ qlist (sw s) Queued → stored (sw s) id = Some j →
       ∀ k, due j (clock k) ↔ rdy id = true) →
    let started := take (free_slots name s) (filter (λ id, rdy id = true) (rev (qlist (sw s) Queued))) in
    map tid (tasks s') = map tid (tasks s) ++ started ∧
    ∃ A B, filter (λ id, id ∉ started) (rev (qlist (sw s) Queued)) = A ++ B ∧
      rev (qlist (sw s') Queued) = B ++ A.
  Proof. exact (tick_rotates_after prof sched name clock rdy es). Qed.
End theorems.

(** Thirty waiting jobs, the first one not due, five slots: the second to the sixth start, and the
    first twenty that stay are rotated behind the others. *)
Definition po_ids : list string :=
  ["00"; "01"; "02"; "03"; "04"; "05"; "06"; "07"; "08"; "09"; "10"; "11"; "12"; "13"; "14"; "15";
   "16"; "17"; "18"; "19"; "20"; "21"; "22"; "23"; "24"; "25"; "26"; "27"; "28"; "29"].
Definition po_job (id : string) : job Z :=
  if String.eqb id "00" then
    set_ctx (demo_job id 0) (set_jtype (ctx (demo_job id 0)) (ScheduledAt 1000000000000))
  else demo_job id 0.
Definition po_es : list (event Z) :=
  [EvStart; EvConfig (WqConfig 1 5)] ++ map (λ id, EvEnqueue (po_job id) new_re_run) po_ids.
Example C55_example :
  let s := demo_after po_es in let s' := demo_after (po_es ++ [EvTick]) in
  Forall plain_event po_es ∧ alive s = true ∧ rev (qlist "q" (sw s) Queued) = po_ids ∧
  free_slots "q" s = 5%nat ∧
  map tid (tasks s') = ["01"; "02"; "03"; "04"; "05"] ∧
  rev (qlist "q" (sw s') Queued) = drop 20 po_ids ++ "00" :: drop 6 (take 20 po_ids).
Proof.
  split; [repeat constructor|]. vm_compute. repeat split.
Qed.

Print Assumptions C55_tick_order.
