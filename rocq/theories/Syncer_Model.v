(** The background task that syncs the database: bfffs-core/src/database/database.rs, Syncer.

    Times are in nanoseconds.  What happens to the task is a list of events with their times; the sync and the flush themselves are C26 and C30. *)
From Verif Require Import Common.

(** database.rs:83 and 85 *)
Definition sync_duration : Z := 5 * 1000000000.
Definition flush_duration : Z := 100000000.

Inductive event :=
| Tick (t t' : Z)    (* the delay is over; the task notices at [t]; what it does then is finished at [t'] *)
| Kick (s t : Z)     (* the task receives at [t] the message that a client sent at [s], when it started a sync (712-718) *)
| Shutdown (t : Z).  (* the task receives the message to end *)

(** what the task does, and the syncs of clients *)
Inductive action := Sync (t : Z) | Flush (t : Z) | ClientSync (s : Z).

(** [top]: when the current round of the loop began, 88 *)
Record task := Task { top : Z; sync_time : Z }.
(** database.rs:87, [t0] is when the task starts *)
Definition start (t0 : Z) : task := Task t0 (t0 + sync_duration).
(** database.rs:88-124, one round of the loop; None: the task has ended.  Errors, which end the task by a panic, are left out. *)
Definition round (k : task) (e : event) : option task * list action :=
  match e with
  | Tick t t' => if sync_time k <? t then (Some (Task t' (t' + sync_duration)), [Sync t])
                 else (Some (Task t' (sync_time k)), [Flush t])
  | Kick s t => (Some (Task t (t + sync_duration)), [ClientSync s])
  | Shutdown _ => (None, [])
  end.
(** database.rs:89: when the delay is over *)
Definition wakeup (k : task) : Z := top k + flush_duration.
