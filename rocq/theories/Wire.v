(** Redis behind a connection that may fail at every step. *)
From Verif Require Export Backend.

(** [link n 0]: the n-th call opens its connection (`get_connection()?`, redis.rs:23,36,60,73,78,124,130);
    if that does not work, nothing has happened.  [link n i] for i > 0: the i-th command of the call works,
    fails without effect, or takes effect and its reply is lost; an error ends the call (`?`).
    Connections that are opened but unused are not told apart from those that cannot be opened. *)
Record wworld := WWorld { ww : rworld; wcalls : nat }.

(** redis.rs:28-52 with failing commands, from the [i]-th one on. *)
Fixpoint w_lmove (line : nat → fault) (i : nat) (k : keyspace) (from to : string) (count : nat) (fd td : direction)
    : keyspace * result (list string) :=
  match count with
  | O => (k, Ok [])
  | S n =>
      match line i with
      | FBefore => (k, Err ERedis)
      | FAfter => ((r_lmove1 k from to fd td).1, Err ERedis)
      | FOk =>
          match r_lmove1 k from to fd td with
          | (k', Err e) => (k', Err e)
          | (k', Ok o) =>
              match w_lmove line (S i) k' from to n fd td with
              | (k'', Ok xs) => (k'', Ok (match o with Some x => x :: xs | None => xs end))
              | (k'', Err e) => (k'', Err e)
              end
          end
      end
  end.

(** redis.rs:83-134: all calls but queue_move are one command. *)
Definition one_command (clock : nat → time) (f : fault) {X : Set} (e : eff (result X)) (w : rworld) : rworld * result X :=
  match f with
  | FOk => redis_h clock _ e w
  | FBefore => (w, Err ERedis)
  | FAfter => ((redis_h clock _ e w).1, Err ERedis)
  end.
Definition call (link : nat → nat → fault) {X : Set} (w : wworld) (p : rworld → rworld * result X) : wworld * result X :=
  match link (wcalls w) O with
  | FOk => let (w', x) := p (ww w) in (WWorld w' (S (wcalls w)), x)
  | _ => (WWorld (ww w) (S (wcalls w)), Err ERedis)
  end.
Definition wire_h (clock : nat → time) (link : nat → nat → fault) : handler wworld := λ X e,
  match e in eff X return wworld → wworld * X with
  | QPush q it => λ w, call link w (one_command clock (link (wcalls w) 1%nat) (QPush q it))
  | QMove f t n fd td => λ w, call link w (λ r,
      let (k, x) := w_lmove (link (wcalls w)) 1 (keys r) f t n fd td in (set_keys r k, x))
  | QRemove q it => λ w, call link w (one_command clock (link (wcalls w) 1%nat) (QRemove q it))
  | QGet q n d => λ w, call link w (one_command clock (link (wcalls w) 1%nat) (QGet q n d))
  | QCount q => λ w, call link w (one_command clock (link (wcalls w) 1%nat) (QCount q))
  | SUpsert h k v => λ w, call link w (one_command clock (link (wcalls w) 1%nat) (SUpsert h k v))
  | SGet h k => λ w, call link w (one_command clock (link (wcalls w) 1%nat) (SGet h k))
  | Now => λ w, let (w', x) := redis_h clock _ Now (ww w) in (WWorld w' (wcalls w), x)
  | Send m => λ w, let (w', x) := redis_h clock _ (Send m) (ww w) in (WWorld w' (wcalls w), x)
  end.
