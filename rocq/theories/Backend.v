(** The backends: InMemory (aj_core/src/backend/mem.rs), Redis (aj_core/src/backend/redis.rs), and
    fault injection. *)
From Verif Require Export Prog.

(** ** InMemory *)

(** aj_core/src/backend/mem.rs:9-13.  Each call holds the mutex, so it is one atomic step.
    A VecDeque is a list, front first. *)
Record store := Store {
  queues : gmap string (list string);
  storages : gmap string (gmap string value);
}.
Definition store_empty : store := Store ∅ ∅.

(** mem.rs:15-20 (insert_item_to_queue). *)
Definition insert_item (q : list string) (item : string) (d : direction) : list string :=
  match d with Front => item :: q | Back => q ++ [item] end.

(** VecDeque::pop_front / pop_back. *)
Definition pop_front (q : list string) : option (string * list string) :=
  match q with [] => None | x :: q' => Some (x, q') end.
Definition pop_back (q : list string) : option (string * list string) :=
  match rev q with [] => None | x :: q' => Some (x, rev q') end.
Definition pop (d : direction) := match d with Front => pop_front | Back => pop_back end.

(** mem.rs:23-32. *)
Definition mem_push (s : store) (queue item : string) : store :=
  match queues s !! queue with
  | Some q => Store (<[queue := insert_item q item Front]> (queues s)) (storages s)
  | None => Store (<[queue := [item]]> (queues s)) (storages s)
  end.

(** mem.rs:45-53: pop up to [count] items. *)
Fixpoint pop_n (d : direction) (count : nat) (q : list string) : list string * list string :=
  match count with
  | O => ([], q)
  | S n =>
      match pop d q with
      | Some (x, q') => let (xs, q'') := pop_n d n q' in (x :: xs, q'')
      | None => pop_n d n q
      end
  end.

(** mem.rs:56-63: insert the popped items one after the other. *)
Fixpoint push_all (qs : gmap string (list string)) (to : string) (d : direction)
    (items : list string) : gmap string (list string) :=
  match items with
  | [] => qs
  | x :: xs =>
      let qs' := match qs !! to with
                 | Some q => <[to := insert_item q x d]> qs
                 | None => <[to := [x]]> qs
                 end in
      push_all qs' to d xs
  end.

(** mem.rs:34-66. *)
Definition mem_move (s : store) (from to : string) (count : nat) (fd td : direction)
    : store * list string :=
  match queues s !! from with
  | Some q =>
      let (items, q') := pop_n fd count q in
      (Store (push_all (<[from := q']> (queues s)) to td items) (storages s), items)
  | None => (s, [])
  end.

(** mem.rs:68-74. *)
Definition mem_remove (s : store) (queue item : string) : store :=
  match queues s !! queue with
  | Some q => Store (<[queue := filter (λ x, x ≠ item) q]> (queues s)) (storages s)
  | None => s
  end.

(** mem.rs:76-107. *)
Definition mem_get (s : store) (queue : string) (count : nat) (d : direction) : list string :=
  match queues s !! queue with
  | Some q =>
      match d with
      | Front => omap (λ i, q !! i) (seq 0 count)
      | Back =>
          let start := if (count <? length q)%nat then (length q - count)%nat else 0%nat in
          omap (λ i, q !! i) (rev (seq start (length q - start)))
      end
  | None => []
  end.

(** mem.rs:109-115. *)
Definition mem_count (s : store) (queue : string) : nat :=
  match queues s !! queue with Some q => length q | None => 0%nat end.

(** mem.rs:117-127. *)
Definition mem_upsert (s : store) (hash key : string) (v : value) : store :=
  match storages s !! hash with
  | Some m => Store (queues s) (<[hash := <[key := v]> m]> (storages s))
  | None => Store (queues s) (<[hash := {[key := v]}]> (storages s))
  end.

(** mem.rs:129-136. *)
Definition mem_sget (s : store) (hash key : string) : option value :=
  match storages s !! hash with Some m => m !! key | None => None end.

(** The world an in-memory work queue runs in: the store, the number of clock readings so far, the
    messages sent to the plugin centre (oldest first). *)
Record world := World { st : store; reads : nat; log : list msg }.
Definition world_empty : world := World store_empty 0 [].
Definition set_st (w : world) (s : store) : world := World s (reads w) (log w).

(** InMemory with an arbitrary clock: the k-th reading of Utc::now() is [clock k].  InMemory calls
    never fail (every branch of mem.rs returns Ok). *)
Definition mem_h (clock : nat → time) : handler world := λ X e,
  match e in eff X return world → world * X with
  | QPush q it => λ w, (set_st w (mem_push (st w) q it), Ok tt)
  | QMove f t n fd td => λ w, let (s, l) := mem_move (st w) f t n fd td in (set_st w s, Ok l)
  | QRemove q it => λ w, (set_st w (mem_remove (st w) q it), Ok tt)
  | QGet q n d => λ w, (w, Ok (mem_get (st w) q n d))
  | QCount q => λ w, (w, Ok (mem_count (st w) q))
  | SUpsert h k v => λ w, (set_st w (mem_upsert (st w) h k v), Ok tt)
  | SGet h k => λ w, (w, Ok (mem_sget (st w) h k))
  | Now => λ w, (World (st w) (S (reads w)) (log w), clock (reads w))
  | Send m => λ w, (World (st w) (reads w) (log w ++ [m]), tt)
  end.

(** ** Fault injection *)

(** What happens to a backend call: it works, it fails and changes nothing, or it takes effect and
    the reply is lost (both failures are `Err(Error::Redis(_))` to the caller, redis.rs:22-133). *)
Inductive fault := FOk | FBefore | FAfter.

Record fworld := FWorld { fw : world; ops : nat }.

(** The error answer of a backend call; [None] for effects that cannot fail. *)
Definition fail_ans {X : Set} (e : eff X) : option X :=
  match e in eff X return option X with
  | QPush _ _ => Some (Err ERedis)
  | QMove _ _ _ _ _ => Some (Err ERedis)
  | QRemove _ _ => Some (Err ERedis)
  | QGet _ _ _ => Some (Err ERedis)
  | QCount _ => Some (Err ERedis)
  | SUpsert _ _ _ => Some (Err ERedis)
  | SGet _ _ => Some (Err ERedis)
  | Now => None
  | Send _ => None
  end.

(** The n-th backend call is subject to [faults n]. *)
Definition faulty_h (clock : nat → time) (faults : nat → fault) : handler fworld := λ X e fwd,
  match fail_ans e with
  | None => let (w', x) := mem_h clock X e (fw fwd) in (FWorld w' (ops fwd), x)
  | Some bad =>
      match faults (ops fwd) with
      | FOk => let (w', x) := mem_h clock X e (fw fwd) in (FWorld w' (S (ops fwd)), x)
      | FBefore => (FWorld (fw fwd) (S (ops fwd)), bad)
      | FAfter => let (w', _) := mem_h clock X e (fw fwd) in (FWorld w' (S (ops fwd)), bad)
      end
  end.

(** ** Redis *)

(** A Redis key holds a list or a hash.  Redis itself is a dependency: the commands below follow its
    documentation.  Connection failures are covered by fault injection, not here. *)
Inductive rval := RList (l : list string) | RHash (m : gmap string value).
Notation keyspace := (gmap string rval).

(** Storing a list: Redis deletes keys whose list became empty. *)
Definition rset (k : keyspace) (key : string) (l : list string) : keyspace :=
  match l with [] => delete key k | _ => <[key := RList l]> k end.
(** Reading a list key: absent is the empty list, a hash is WRONGTYPE. *)
Definition rlist (k : keyspace) (key : string) : option (list string) :=
  match k !! key with Some (RList l) => Some l | Some (RHash _) => None | None => Some [] end.

(** LPUSH (redis.rs:22-26). *)
Definition r_lpush (k : keyspace) (key item : string) : keyspace * result unit :=
  match rlist k key with
  | Some l => (rset k key (item :: l), Ok tt)
  | None => (k, Err ERedis)
  end.

(** redis.rs:136-143: Front is Left, Back is Right; redis.rs:145-150 (clone_direction) copies it. *)
(** One LMOVE: nil if the source is absent; WRONGTYPE if either key is a hash; otherwise pop from the
    source and push to the destination (which may be the same list). *)
Definition r_lmove1 (k : keyspace) (from to : string) (fd td : direction)
    : keyspace * result (option string) :=
  match rlist k from with
  | None => (k, Err ERedis)
  | Some l =>
      match pop fd l with
      | None => (k, Ok None)
      | Some (x, l') =>
          match rlist k to with
          | None => (k, Err ERedis)
          | Some _ =>
              let k' := rset k from l' in
              match rlist k' to with
              | Some t => (rset k' to (insert_item t x td), Ok (Some x))
              | None => (k, Err ERedis)
              end
          end
      end
  end.

(** redis.rs:28-52: [count] LMOVE commands, collecting the non-nil answers, stopping at an error. *)
Fixpoint r_lmove (k : keyspace) (from to : string) (count : nat) (fd td : direction)
    : keyspace * result (list string) :=
  match count with
  | O => (k, Ok [])
  | S n =>
      match r_lmove1 k from to fd td with
      | (k', Err e) => (k', Err e)
      | (k', Ok o) =>
          match r_lmove k' from to n fd td with
          | (k'', Ok xs) => (k'', Ok (match o with Some x => x :: xs | None => xs end))
          | (k'', Err e) => (k'', Err e)
          end
      end
  end.

(** LRANGE key start stop: negative indices count from the end; out of range indices are clamped. *)
Definition lrange_idx (len i : Z) : Z := if i <? 0 then Z.max 0 (len + i) else i.
Definition r_lrange (l : list string) (start stop : Z) : list string :=
  let len := Z.of_nat (length l) in
  let s := lrange_idx len start in
  let e := Z.min (if stop <? 0 then len + stop else stop) (len - 1) in
  if (e <? s) || (len <=? s) then []
  else take (Z.to_nat (e - s + 1)) (drop (Z.to_nat s) l).

(** redis.rs:54-70. *)
Definition r_get (k : keyspace) (key : string) (count : nat) (d : direction)
    : result (list string) :=
  match rlist k key with
  | None => Err ERedis
  | Some l =>
      Ok match d with
         | Front => r_lrange l 0 (Z.of_nat count - 1)
         | Back => rev (r_lrange l (- Z.of_nat count) (-1))
         end
  end.

(** LLEN (redis.rs:72-75). *)
Definition r_llen (k : keyspace) (key : string) : result nat :=
  match rlist k key with Some l => Ok (length l) | None => Err ERedis end.

(** LREM key 0 item (redis.rs:77-80): removes all equal elements. *)
Definition r_lrem (k : keyspace) (key item : string) : keyspace * result unit :=
  match rlist k key with
  | Some l => (rset k key (filter (λ x, x ≠ item) l), Ok tt)
  | None => (k, Err ERedis)
  end.

(** HSET / HGET (redis.rs:123-133). *)
Definition r_hset (k : keyspace) (hash key : string) (v : value) : keyspace * result unit :=
  match k !! hash with
  | Some (RHash m) => (<[hash := RHash (<[key := v]> m)]> k, Ok tt)
  | None => (<[hash := RHash {[key := v]}]> k, Ok tt)
  | Some (RList _) => (k, Err ERedis)
  end.
Definition r_hget (k : keyspace) (hash key : string) : result (option value) :=
  match k !! hash with
  | Some (RHash m) => Ok (m !! key)
  | None => Ok None
  | Some (RList _) => Err ERedis
  end.

Record rworld := RWorld { keys : keyspace; rreads : nat; rlog : list msg }.
Definition rworld_empty : rworld := RWorld ∅ 0 [].
Definition set_keys (w : rworld) (k : keyspace) : rworld := RWorld k (rreads w) (rlog w).

(** The Redis backend (redis.rs:83-134).  Its only field is the client, redis.rs:7-20; each call opens a
    connection of its own. *)
Definition redis_h (clock : nat → time) : handler rworld := λ X e,
  match e in eff X return rworld → rworld * X with
  | QPush q it => λ w, let (k, r) := r_lpush (keys w) q it in (set_keys w k, r)
  | QMove f t n fd td => λ w, let (k, r) := r_lmove (keys w) f t n fd td in (set_keys w k, r)
  | QRemove q it => λ w, let (k, r) := r_lrem (keys w) q it in (set_keys w k, r)
  | QGet q n d => λ w, (w, r_get (keys w) q n d)
  | QCount q => λ w, (w, r_llen (keys w) q)
  | SUpsert h k v => λ w, let (k', r) := r_hset (keys w) h k v in (set_keys w k', r)
  | SGet h k => λ w, (w, r_hget (keys w) h k)
  | Now => λ w, (RWorld (keys w) (S (rreads w)) (rlog w), clock (rreads w))
  | Send m => λ w, (RWorld (keys w) (rreads w) (rlog w ++ [m]), tt)
  end.
