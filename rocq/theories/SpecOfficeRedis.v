(** Several job types in one process whose backend is Redis. *)
From Verif Require Export SpecOffice OfficeRedis.

(** A list of the queue [q], and the stored value of an id, in the keys of a server. *)
Definition k_list (k : keyspace) (q : string) (x : status) : list string :=
  match k !! format_queue_name q x with Some (RList l) => l | _ => [] end.
Definition k_value (k : keyspace) (id : string) : option value :=
  match k !! STORAGE_HASH with Some (RHash m) => m !! id | _ => None end.
