(** User code: the methods of the trait `Executable`, and how one execution calls them. *)
From Verif Require Import Queue.

(** aj_core/src/job/executable.rs:7-43.  Methods are functions of what they are given; [&mut self]
    becomes a result.  [retry_at] is [None] if the default (30-42) is kept.  Methods that depend on
    anything else, wait for ever or panic are not of this form; Sys.v allows them.  The default
    pre_execute (10), post_execute (14-20) and is_failed_output (24-26) are functions, too. *)
Record code {M O : Type} := Code {
  pre_execute : context → M → M;
  execute : context → M → M * O;
  post_execute : context → M → O → M * O;
  is_failed_output : M → O → bool;
  retry_at : option (M → retry → O → retry * option time);
}.
Arguments code : clear implicits.

(** aj_core/src/job/mod.rs:138-140: the three calls, all with the context in which run_count has been
    increased (136). *)
Definition user_run {M O} (c : code M O) (j : job M) : M * O :=
  let d := pre_execute c (ctx j) (data j) in
  let (d, o) := execute c (ctx j) d in
  post_execute c (ctx j) d o.

(** aj_core/src/queue.rs:333-341: is_failed_output is asked about the output of post_execute, and by
    the default [retry_at] once more (executable.rs:35). *)
Definition code_result {M O} (c : code M O) (j : job M) : user_result M :=
  let (d, o) := user_run c j in
  UserResult d (is_failed_output c d o)
    (match retry_at c, jretry (ctx j) with
     | Some f, Some r => let (r', t) := f d r o in CustomRetryAt r' t
     | _, _ => DefaultRetryAt (is_failed_output c d o)
     end).
