(** C80: what is stored is text, and jobs come back from their text. *)
From Coq Require Import Ascii.
From Verif Require Import Spec SpecValue SpecText TextFacts Demo.

(** Every JSON value nested at most 127 levels deep is read back from its text; deeper ones are not. *)
Theorem C80_text_round_trip v :
  json_from_str (json_to_string v) = if (jdepth v <=? 127)%nat then Some v else None.
Proof. exact (text_round_trip v). Qed.
(** What is written is JSON for the value, and what is read is JSON for it: the reader takes no other text (up to
    the nesting limit all of what [denotes] describes). *)
Theorem C80_writes_json v : denotes (list_ascii_of_string (json_to_string v)) v.
Proof. exact (writes_json v). Qed.
Theorem C80_reads_json s v : json_from_str s = Some v ↔ denotes (list_ascii_of_string s) v ∧ (jdepth v ≤ 127)%nat.
Proof. exact (reads_json s v). Qed.
Example C80_reads_case :
  json_from_str "[1,{""a\u0041"":null},""\f""]" = Some (JArr [JNum 1; JObj [("aA", JNull)]; JStr (String "012" "")]) ∧
  json_from_str "[01]" = None ∧ json_from_str "[1,]" = None ∧ json_from_str "-0" = None ∧ json_from_str "[""\a""]" = None.
Proof. split; [by vm_compute|]. split; [by vm_compute|]. split; [by vm_compute|]. split; by vm_compute. Qed.
(** The text is in one line, without control characters... *)
Theorem C80_one_line v : Forall (λ c, (32 ≤ nat_of_ascii c)%nat) (list_ascii_of_string (json_to_string v)).
Proof. exact (printed_json v). Qed.
(** ... and strings of other characters than those, quotes and backslashes stand in it as they are. *)
Theorem C80_plain_text s :
  Forall (λ c, (32 ≤ nat_of_ascii c)%nat ∧ c ≠ "034"%char ∧ c ≠ "\"%char) (list_ascii_of_string s) →
  list_ascii_of_string (json_to_string (JStr s)) = "034"%char :: list_ascii_of_string s ++ ["034"%char].
Proof. exact (plain_json s). Qed.
Example C80_plain_case : json_to_string (JStr "a b") = String "034" (String "a" (String " " (String "b" (String "034" "")))).
Proof. reflexivity. Qed.

Section text.
  Context {M : Type} (S : Serde M).
  Context (prof : profile).
  Context (sched : string → option (time → option time)).
  Context (name : string).
  Context (clock : nat → time).

  (** All histories on the backend that holds text: answers, executions, tasks, lists and messages are those of
      the backend that holds JSON values, when payloads are nested at most 126 deep... *)
  Theorem C80_text_backend_partial (es : list (event M)) :
    (∀ (d : M) v, ser d = Some v → (jdepth v ≤ 126)%nat) →
    let t := sys_run prof sched name (text_h clock) (sys_init tworld_empty) es in
    let s := sys_run prof sched name (mem_h clock) (sys_init world_empty) es in
    responses prof sched name (text_h clock) (sys_init tworld_empty) es =
    responses prof sched name (mem_h clock) (sys_init world_empty) es ∧
    runs t = runs s ∧ tasks t = tasks s ∧ alive t = alive s ∧ log (tw (sw t)) = log (sw s) ∧
    ∀ q, qlist name (tw (sw t)) q = qlist name (sw s) q.
  Proof. exact (text_shallow prof sched name clock S es). Qed.
  (** ... and, for all payloads, those with the deeper payloads failing to serialize. *)
  Theorem C80_text_backend_limited (es : list (event M)) :
    let t := @sys_run M S prof sched name _ (text_h clock) (sys_init tworld_empty) es in
    let s := @sys_run M (limited 126 S) prof sched name _ (mem_h clock) (sys_init world_empty) es in
    @responses M S prof sched name _ (text_h clock) (sys_init tworld_empty) es =
    @responses M (limited 126 S) prof sched name _ (mem_h clock) (sys_init world_empty) es ∧
    runs t = runs s ∧ tasks t = tasks s ∧ alive t = alive s ∧ log (tw (sw t)) = log (sw s) ∧
    ∀ q, qlist name (tw (sw t)) q = qlist name (sw s) q.
  Proof. exact (text_histories prof sched name clock S es). Qed.
  (** The same for any other backend (failing calls, Redis, ...) through which values go as text. *)
  Theorem C80_any_backend {W} (h : handler W) s (es : list (event M)) :
    @sys_run M S prof sched name W (via_text h) s es = @sys_run M (limited 126 S) prof sched name W h s es ∧
    @responses M S prof sched name W (via_text h) s es = @responses M (limited 126 S) prof sched name W h s es.
  Proof. exact (any_backend prof sched name S h s es). Qed.

  (** A payload nested deeper than 126 levels is never executed, whatever happens. *)
  Theorem C80_deep_never_runs (es : list (event M)) id :
    Forall (λ e, match core e with
      | EvEnqueue j _ => jid j = id → match ser (data j) with Some v => (126 < jdepth v)%nat | None => True end
      | _ => True end) es →
    ∀ j, j ∈ runs (sys_run prof sched name (text_h clock) (sys_init tworld_empty) es) → jid j ≠ id.
  Proof. exact (deep_never_runs prof sched name clock S es id). Qed.
End text.

(** "What `run` accepts is executed" is false for a payload that round-trips as a JSON value: with 127 nested
    arrays its submission is
    acknowledged and its id is put into the Queued list, but no history executes it. *)
Theorem C80_deep_refuted :
  ∃ (M : Type) (S : Serde M) (j : job M),
    (∀ d : M, (ser d ≫= de) = Some d) ∧
    (let es := [EvStart; ev_run j] in
     @responses M S Debug demo_sched "q" _ (text_h demo_clock) (sys_init tworld_empty) es = [RNone; RUnit (Ok tt)] ∧
     qlist "q" (tw (sw (@sys_run M S Debug demo_sched "q" _ (text_h demo_clock) (sys_init tworld_empty) es))) Queued = [jid j]) ∧
    (∀ prof sched name clock (es : list (event M)),
       Forall (λ e, match core e with EvEnqueue j' _ => jid j' = jid j → data j' = data j | _ => True end) es →
       ∀ j', j' ∈ runs (@sys_run M S prof sched name _ (text_h clock) (sys_init tworld_empty) es) → jid j' ≠ jid j).
Proof. exact deep_refuted. Qed.

(** ** Concrete cases *)

Example C80_text_example :
  json_to_string (JObj [("a", JArr [JNum (-120); JNum 0; JNull; JBool true; JArr []]);
                        ("q""" +:+ String "010"%char (String "001"%char "é"), JStr "\")]) =
  "{""a"":[-120,0,null,true,[]],""q\""\n\u0001é"":""\\""}".
Proof. by vm_compute. Qed.
(** Text that is not JSON, and text after the value. *)
Example C80_not_json :
  map json_from_str [""; "["; "[1,]"; "1 "; "nul"; "-"; "[]]"; "{""a"":}"] = replicate 8 None.
Proof. by vm_compute. Qed.

(** The demo payload is a number. *)
Definition text_hist : list (event Z) :=
  [EvStart; ev_run (demo_job "a" (-5)); EvTick] ++ demo_polls 0 (demo_ok 7) ++ [EvGet "a"].
Example C80_backend_example :
  (∀ (d : Z) v, ser d = Some v → (jdepth v ≤ 126)%nat) ∧
  let t := sys_run Debug demo_sched "q" (text_h demo_clock) (sys_init tworld_empty) text_hist in
  map data (runs t) = [-5] ∧ qlist "q" (tw (sw t)) Finished = ["a"] ∧
  text_get (texts (sw t)) STORAGE_HASH "a" = Some
    "{""context"":{""job_id"":""a"",""job_type"":""Normal"",""job_status"":""Finished"",""retry"":null,""created_at"":0,""enqueue_at"":0,""run_at"":2,""complete_at"":4,""cancel_at"":null,""run_count"":1},""data"":7}".
Proof. split; [intros d v [= <-]; cbn; lia|]. by vm_compute. Qed.

(** A chain of 126 links runs, one of 127 does not; both are acknowledged. *)
Definition chain_hist : list (event chain) :=
  [EvStart; ev_run (chain_job "a" 126); ev_run (chain_job "b" 127); EvTick;
   EvTask 0 (UserResult End false (DefaultRetryAt false)); EvTask 0 (UserResult End false (DefaultRetryAt false))].
Example C80_deep_example :
  let t := @sys_run _ chain_serde Debug demo_sched "q" _ (text_h demo_clock) (sys_init tworld_empty) chain_hist in
  map jid (runs t) = ["a"] ∧ qlist "q" (tw (sw t)) Queued = ["b"] ∧
  Forall (λ e, match core e with
    | EvEnqueue j _ => jid j = "b" → match @ser _ chain_serde (data j) with Some v => (126 < jdepth v)%nat | None => True end
    | _ => True end) chain_hist.
Proof.
  cbv zeta. split; [by vm_compute|]. split; [by vm_compute|].
  repeat (apply List.Forall_cons; [cbn; try done; intros _; apply Nat.leb_le; by vm_compute|]). constructor.
Qed.
(** A backend whose fifth call fails. *)
Example C80_any_backend_example :
  let h := via_text (faulty_h demo_clock (λ n, if Nat.eqb n 4 then FBefore else FOk)) in
  let es := [EvStart; ev_run (demo_job "a" 1); ev_run (demo_job "b" 2)] in
  responses Debug demo_sched "q" h (sys_init (FWorld world_empty 0)) es = [RNone; RUnit (Err ERedis); RUnit (Ok tt)].
Proof. by vm_compute. Qed.

Print Assumptions C80_writes_json.
Print Assumptions C80_reads_json.
Print Assumptions C80_one_line.
Print Assumptions C80_plain_text.
Print Assumptions C80_text_round_trip.
Print Assumptions C80_text_backend_partial.
Print Assumptions C80_text_backend_limited.
Print Assumptions C80_any_backend.
Print Assumptions C80_deep_never_runs.
Print Assumptions C80_deep_refuted.
