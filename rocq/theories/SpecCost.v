(** What a step costs: the number of calls it makes to the backend.  On Redis every one of them is a
    round trip over the network (aj_core/src/backend/redis.rs:22-133), made while the actor handles no
    other message. *)
From Verif Require Export Spec.

(** Reading the clock and sending a message to the plugin actor are not calls of the backend. *)
Definition is_call {X : Set} (e : eff X) : bool :=
  match e with Now | Send _ => false | _ => true end.

(** The calls made by a program that the backend [h] answers. *)
Fixpoint cost {W A} (h : handler W) (p : prog A) (w : W) : nat :=
  match p with
  | Eff e k => ((if is_call e then 1 else 0) + let (w', x) := h _ e w in cost h (k x) w')%nat
  | _ => 0%nat
  end.

(** At most so many calls for a step that is no tick and no start. *)
Definition most_calls {M} (e : event M) : nat :=
  match e with
  | EvEnqueue _ _ => 4     (* read, override, push, store *)
  | EvCancel _ => 3        (* read, store, remove *)
  | EvGet _ => 1           (* read *)
  | EvRetry _ => 4         (* read, remove, store, push *)
  | EvTask _ _ => 5        (* remove, store that fails, then store, remove, push *)
  | _ => 0
  end.
