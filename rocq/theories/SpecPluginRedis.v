(** Specifications for plugins next to a queue on Redis. *)
From Verif Require Export SpecPlugin SpecFrontRedis PluginRedis.

Section spec.
  Context {M : Type} `{SM : Serde M}.
  Context (prof : profile).
  Context (sched : string → option (time → option time)).
  Context (name : string).
  Context (clock : nat → time).
  Context (ty : nat).

  Definition rp_after (es : list (pevent M)) : rpsys M := rpsys_run prof sched name clock ty rpsys_init es.
  (** The events that the queue handled: all but the polls of tasks that wait for an answer. *)
  Fixpoint r_queue_events (s : rpsys M) (es : list (pevent M)) : list (event M) :=
    match es with
    | [] => []
    | e :: es' =>
        match e with PEv e' => if r_blocked s e' then [] else [e'] | _ => [] end
        ++ r_queue_events (rpsys_step prof sched name clock ty s e) es'
    end.
End spec.
