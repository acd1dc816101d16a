(** Effects of the code, programs over them, interpreters. *)
From Verif Require Export Json.

(** A stored string: [Some j] is the JSON text of [j]; [None] is the empty string that
    upsert_to_storage writes when serialization fails (aj_core/src/backend/types.rs:51). *)
Definition value := option json.

(** Messages sent to the PluginCenter actor: aj_core/src/plugin/mod.rs:81-90 (RunHook) and
    109-118 (ChangeStatus, sent with do_send by change_status, 23-33). *)
Inductive msg :=
  | ChangeStatus (id : string) (s : status)
  | RunHook (id : string) (before : bool).

(** The seven calls of the Backend trait (aj_core/src/backend/types.rs:16-42), reading the clock
    (aj_core/src/util/mod.rs:3-5) and sending to the PluginCenter. *)
Inductive eff : Set → Set :=
  | QPush (queue item : string) : eff (result unit)
  | QMove (from to : string) (count : nat) (fd td : direction) : eff (result (list string))
  | QRemove (queue item : string) : eff (result unit)
  | QGet (queue : string) (count : nat) (d : direction) : eff (result (list string))
  | QCount (queue : string) : eff (result nat)
  | SUpsert (hash key : string) (v : value) : eff (result unit)
  | SGet (hash key : string) : eff (result (option value))
  | Now : eff time
  | Send (m : msg) : eff unit.

(** A program: a sequence of effects ending in a result, a panic, or a loop that did not terminate
    within its iteration bound. *)
Inductive prog (A : Type) : Type :=
  | Ret (a : A)
  | Panic
  | Diverge
  | Eff {X : Set} (e : eff X) (k : X → prog A).
Arguments Ret {A} _.
Arguments Panic {A}.
Arguments Diverge {A}.
Arguments Eff {A X} _ _.

Fixpoint bind {A B} (p : prog A) (f : A → prog B) : prog B :=
  match p with
  | Ret a => f a
  | Panic => Panic
  | Diverge => Diverge
  | Eff e k => Eff e (λ x, bind (k x) f)
  end.
Definition do {X : Set} (e : eff X) : prog X := Eff e Ret.

Declare Scope prog_scope.
Delimit Scope prog_scope with prog.
Notation "'let!' x ':=' p 'in' q" := (bind p (λ x, q))
  (at level 200, x binder, p at level 200, q at level 200, right associativity) : prog_scope.
(** Rust's `?`: stop with the error. *)
Notation "'let?' x ':=' p 'in' q" :=
  (bind p (λ r, match r with Ok x => q | Err e => Ret (Err e) end))
  (at level 200, x pattern, p at level 200, q at level 200, right associativity) : prog_scope.
Open Scope prog_scope.

Inductive outcome (A : Type) := Done (a : A) | Panicked | Diverged.
Arguments Done {A} _.
Arguments Panicked {A}.
Arguments Diverged {A}.

(** How a backend (together with the clock and the plugin centre) answers an effect. *)
Definition handler (W : Type) := ∀ X : Set, eff X → W → W * X.

Fixpoint run {W A} (h : handler W) (p : prog A) (w : W) : W * outcome A :=
  match p with
  | Ret a => (w, Done a)
  | Panic => (w, Panicked)
  | Diverge => (w, Diverged)
  | Eff e k => let (w', x) := h _ e w in run h (k x) w'
  end.

(** The state after a crash that happens when [n] effects were performed. *)
Fixpoint run_n {W A} (h : handler W) (n : nat) (p : prog A) (w : W) : W :=
  match n, p with
  | S n', Eff e k => let (w', x) := h _ e w in run_n h n' (k x) w'
  | _, _ => w
  end.
