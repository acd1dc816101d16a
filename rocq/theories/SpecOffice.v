(** Several job types in one process. *)
From Verif Require Export SpecMulti SpecClient Office.

(** The ids that a call names, or may come to name: those of the given set. *)
Definition call_ids {M} (K : string → Prop) (c : call M) : Prop :=
  match c with
  | CRun j _ | CJust j => K (jid j)
  | CCancel id | CGet id | CRetry id => K id
  | CUpdate id _ cx => K id ∧ match cx with Some x => K (job_id x) | None => True end
  | CConfig _ => True
  end.

Section spec.
  Context {T : Type} {TD : EqDecision T}.
  Context {M : T → Type} {SM : ∀ t, Serde (M t)}.
  Context (name : T → string) (clock : T → nat → time).
  (** The ids of the jobs of each type. *)
  Context (ids : T → string → Prop).

  (** Different types have different queue names and no common ids. *)
  Definition separate : Prop :=
    ∀ t t', t ≠ t' → name t ≠ name t' ∧ ∀ id, ids t id → ids t' id → False.
  Definition queue_of (t : T) : queue_spec := QSpec (M t) (SM t) (name t) (clock t) [] (ids t).
  (** Callers name ids of their type only. *)
  Definition keeps_ids (oe : oevent M) : Prop :=
    match oe with OCall t c => call_ids (ids t) c | _ => True end.

  (** What concerns type [t] in the process [o] is as in the process [f], which has no other types; and when
      the queue is not in the middle of a step, so is what it has in the store. *)
  Definition as_in (o : office M) (t : T) (f : front (M t) world) : Prop :=
    let d := desks o t in
    own_state (q f) = d_q d ∧ known f = d_known d ∧ begun f = d_begun d ∧ q_box f = d_box d ∧
    aj_up f = o_up o ∧ aj_box f = own_part t (o_box o) ∧ cs f = d_cs d ∧ trace f = d_trace d ∧
    (d_busy d = None →
       reads (sw (q f)) = d_reads d ∧ log (sw (q f)) = d_log d ∧
       same_view (queue_of t) (st (sw (q f))) (o_store o)).
End spec.
(** The callers of type [t] go on, its queue acts, AJ reads its mailbox; the queues and the callers of other
    types do nothing. *)
Definition tends {T} {M : T → Type} (t : T) (oe : oevent M) : Prop :=
  match oe with
  | OGo t' _ | OBegin t' | OTake t' | OEff t' | OEnd t' => t' = t
  | OAj => True
  | _ => False
  end.
