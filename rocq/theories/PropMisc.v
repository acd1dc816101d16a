(** The #[job] attribute; conversion of milliseconds. *)
From Verif Require Import Registry SpecMacro MacroFacts.

(** C53 for the supported functions (at least one argument, no comma after the last one, all arguments
    plain identifiers, distinct and not "context"): run(vs) and run_with_context(vs, ctx) make a job
    that calls the function with exactly vs, whatever the values are.  Missing: other functions, for
    which it is false. *)
Theorem C53_faithful_partial f {V} (vs : list V) ctx :
  supported f → length vs = length (f_args f) → faithful (expand f) vs ctx.
Proof. exact (λ H, supported_faithful f H vs ctx). Qed.
Print Assumptions C53_faithful_partial.

Definition add_fn : fn_sig :=
  FnSig "add_numbers" true [Typed (PIdent false false "a" false) 1; Typed (PIdent false false "b" false) 1;
    Typed (PIdent false false "c" false) 2] false.
Lemma add_fn_supported : supported add_fn.
Proof.
  split; [done|]. split; [done|]. exists ["a"; "b"; "c"]. split; [|split].
  - repeat constructor; by eexists.
  - apply (bool_decide_unpack _). by vm_compute.
  - apply (bool_decide_unpack _). by vm_compute.
Qed.
Example C53_faithful_case :
  make_struct (expand add_fn) (e_run_params (expand add_fn)) [] [5; 7; 9] = Some [("a", 5); ("b", 7); ("c", 9)] ∧
  call_args (expand add_fn) [("a", 5); ("b", 7); ("c", 9)] = Some [5; 7; 9] ∧
  make_struct (expand add_fn) (e_ctx_params (expand add_fn)) [100] [5; 7; 9] = Some [("a", 5); ("b", 7); ("c", 9)] ∧
  supported add_fn.
Proof. split; [by vm_compute|]. split; [by vm_compute|]. split; [by vm_compute|]. exact add_fn_supported. Qed.

(** These are all: the expansion is grammatical with as many arguments as the function has exactly for
    the supported functions. *)
Theorem C53_exactly_supported f :
  grammatical (expand f) ∧ arity_ok f (expand f) ↔ supported f.
Proof. exact (conj (λ H, valid_supported f (proj1 H) (proj2 H)) (supported_valid f)). Qed.
Print Assumptions C53_exactly_supported.

Example C53_exactly_case :
  grammatical (expand add_fn) ∧ arity_ok add_fn (expand add_fn).
Proof. apply C53_exactly_supported. exact add_fn_supported. Qed.

(** C53 is false for: a function without arguments, a comma after the last argument (as rustfmt writes
    it for long signatures), a mutable argument, a pattern, an argument named context. *)
Theorem C53_refuted :
  (let f := FnSig "hello" false [] false in
   e_ctx_params (expand f) = [TPunct ","; TIdent "context"; TPunct ":"; TType context_type] ∧
   parse_params (e_ctx_params (expand f)) = None) ∧
  (let f := FnSig "hello" false [Typed (PIdent false false "a" false) 1] true in
   parse_params (fn_inputs f) ≠ None ∧ parse_params (e_ctx_params (expand f)) = None) ∧
  (let f := FnSig "hello" false [Typed (PIdent false true "a" false) 1] false in
   parse_fields (e_fields (expand f)) = None ∧ parse_clones (e_call (expand f)) = None) ∧
  (let f := FnSig "hello" false [Typed (PIdent false false "a" false) 1; Typed POther 2] false in
   parse_clones (e_call (expand f)) = Some ["a"]) ∧
  (let f := FnSig "hello" false [Typed (PIdent false false "context" false) 1] false in
   ¬ distinct_binders (e_ctx_params (expand f))).
Proof.
  split; [by vm_compute|]. split; [by vm_compute|]. split; [by vm_compute|]. split; [by vm_compute|].
  cbv zeta. intros (ps & E & Hn). vm_compute in E. injection E as <-. cbn in Hn.
  apply list.NoDup_cons in Hn as [Hn _]. apply Hn. by constructor.
Qed.
Print Assumptions C53_refuted.

(** The queue name depends on nothing but the function name.  For any two functions of one name (in two
    modules, hence two types 0 and 1), used one after the other without any concurrency, the first is
    submitted; the second call fails and AJ is gone. *)
Theorem C53_queue_name_refuted pascal f g :
  f_name f = f_name g →
  let s := reg_run reg_init
    [RRun 0 (queue_name_of pascal f); RStep 0; RStep 0; RHandle; RStep 0;
     RRun 1 (queue_name_of pascal g); RStep 1; RStep 1; RHandle] in
  map snd (calls s) = [CSent 0; CFailed]%nat ∧ aj_alive s = false.
Proof. exact (same_name_fails pascal f g). Qed.
Print Assumptions C53_queue_name_refuted.
Example C53_queue_name_case :
  let f := FnSig "send" true [Typed (PIdent false false "mail" false) 1] false in
  let g := FnSig "send" true [Typed (PIdent false false "sms" false) 2] false in
  f ≠ g ∧ queue_name_of (λ x, x) f = "Jobsend" ∧ queue_name_of (λ x, x) g = "Jobsend".
Proof. split; [done|]. by split. Qed.

(** C52 for milliseconds whose nanoseconds fit in 64 bits (years 1677 to 2262): converting there and
    back gives the same value.  Missing: other values, for which it is false. *)
Theorem C52_ms_partial prof ms :
  - 2 ^ 63 ≤ ms * 1000000 ≤ 2 ^ 63 - 1 →
  ∃ t, get_ms_as_datetime prof ms = Some t ∧ t / 1000000 = ms ∧ t mod 1000000 = 0.
Proof. exact (ms_partial prof ms). Qed.
Print Assumptions C52_ms_partial.
Example C52_ms_case :
  get_ms_as_datetime Debug 1600000000000 = Some 1600000000000000000 ∧
  get_ms_as_datetime Release (-9223372036854) = Some (-9223372036854000000).
Proof. by vm_compute. Qed.

(** For every other value it is wrong: a panic in a debug build, a wrong time in a release build. *)
Theorem C52_ms_refuted ms :
  ¬ (- 2 ^ 63 ≤ ms * 1000000 ≤ 2 ^ 63 - 1) →
  get_ms_as_datetime Debug ms = None ∧
  ∃ t, get_ms_as_datetime Release ms = Some t ∧ t / 1000000 ≠ ms.
Proof. exact (ms_refuted ms). Qed.
Print Assumptions C52_ms_refuted.
(** The year 2262. *)
Example C52_ms_refuted_case :
  get_ms_as_datetime Debug 9223372036855 = None ∧
  get_ms_as_datetime Release 9223372036855 = Some (-9223372036854551616).
Proof. by vm_compute. Qed.
