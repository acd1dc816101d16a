(** Waiting lists that fit one batch. *)
From Verif Require Export Spec.

Section spec.
  Context {M : Type} `{SM : Serde M}.
  Context (prof : profile).
  Context (sched : string → option (time → option time)).
  Context (name : string).
  Context (clock : nat → time).

  (** How many ids are behind [id] in a list; new ids are put at the front (queue.rs:203-213, mem.rs:25). *)
  Fixpoint behind (id : string) (l : list string) : nat :=
    match l with
    | [] => 0
    | x :: l' => if String.eqb x id then length l' else behind id l'
    end.
  (** The free slots that the ticks of a history find, all together. *)
  Fixpoint offered (s : sys world M) (es : list (event M)) : nat :=
    match es with
    | [] => 0
    | e :: es' =>
        ((if match e with EvTick => true | _ => false end then free_slots name s else 0)
         + offered (sys_step prof sched name (mem_h clock) s e).1 es')%nat
    end.
  (** Every tick, that of a start included, finds at most 20 waiting ids. *)
  Fixpoint short_lists (s : sys world M) (es : list (event M)) : Prop :=
    match es with
    | [] => True
    | e :: es' =>
        (e = EvTick ∨ e = EvStart → (length (qlist name (sw s) Queued) <= 20)%nat) ∧
        short_lists (sys_step prof sched name (mem_h clock) s e).1 es'
    end.
End spec.
