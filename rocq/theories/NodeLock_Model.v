(** How the operations on a tree share one of its nodes.

    Models, from /repo/bfffs-core/src:
    - tree/node.rs 1031-1057 (IntElem::rlock), 782-785 (TreeReadGuard),
      815-866 and 875-925 (TreeWriteGuard::xlock, xlock_nc), 938-972
      (drain_xlock);
    - tree/tree/mod.rs 1097-1131 (get, get_r), 2255-2294 (xlock_root),
      992-1028 and 1062-1086 (flush_leaves, flush_r), 2472-2556
      (rewrite_node, rewrite_node_r), 2014-2075
      (range_delete_purge), 2181-2199 (write_leaf);
    - idml/idml.rs 562-628 and ddml/ddml.rs 527-545 (get and pop, as far as
      they hand out the cached object).

    One node of the tree is modelled together with the lock of its parent.
    Any number of tasks use the node at the same time.  Each task does one
    operation; what it does to the node is broken up into the steps between
    which another thread may run.  Where the node's contents matter they are
    one number.

    Simplified:
    - reading the node from disk is one step, and does not fail;
    - a split or merge of the node is a change of its contents like any
      other;
    - a task that finds the node gone has nothing more to do with it;
    - the locks are those of the crate futures-locks 0.7: any number of
      readers or one writer; a guard is a handle on the lock; dropping a guard
      first unlocks and then lets go of the handle.  Its queues are not
      modelled: a task waiting for a lock may get it whenever it is free. *)
From Coq Require Import List ZArith Lia Bool Arith.
Import ListNotations.
Open Scope Z_scope.

(** What a task does to the node: look a key up (tree/mod.rs 1097), change it
    (insert, remove: 1260, 2097), write it to disk if dirty (896), move it to
    another place on disk unless it is dirty (the cleaner: 2472), delete it
    together with everything in it (2014). *)
Inductive kind := Read | Modify (v : Z) | Flush | Rewrite | Purge.

(** Where a task is.  [o] is the object that it has: the [Arc<Node>] or the
    [Box<Node>]. *)
Inductive phase :=
| Start (k : kind)
| Parent (k : kind)            (* has locked the parent *)
| Handle (k : kind) (o : nat)  (* and has the object, but not its lock *)
| Locked (k : kind) (o : nat)  (* and the object's lock *)
| Unlocked (k : kind) (o : nat)(* has unlocked it to take it (node.rs 848) *)
| Owned (v : Z) (o : nat)      (* a writer has parent, dirty node and lock *)
| Inside (k : kind) (o : nat)  (* the parent is unlocked, the node is not *)
| Written (o : nat)            (* the change has been made *)
| Tail (o : nat)               (* unlocked; the handle is not yet dropped *)
| Done.

(** tree/node.rs 197-210, TreePtr: where the parent says that the node is;
    [Gone] is a node that the parent no longer has. *)
Inductive place := Disk | Mem (o : nat) | Gone.

(** What happened, newest first: a task began (got the parent's lock), the
    node's contents were changed to something (or deleted), a task read. *)
Inductive entry :=
| Began (t : nat)
| Wrote (v : option Z)
| Saw (t : nat) (v : option Z).

Record st := mkSt {
  tasks : list phase;
  ptr : place;
  cache : option nat;      (* the object that the cache has *)
  disk : Z;                (* the contents on disk, if the node is there *)
  objs : list Z;           (* the contents of every object that ever was *)
  log : list entry }.

Definition holds_parent (p : phase) : bool :=
  match p with
  | Parent _ | Handle _ _ | Locked _ _ | Unlocked _ _ | Owned _ _ => true
  | _ => false
  end.

Definition is_read (k : kind) : bool :=
  match k with Read => true | _ => false end.

(** Everyone but readers locks the parent exclusively (tree/mod.rs 1263,
    938, 1499; readers: 1100). *)
Definition holds_parent_excl (p : phase) : bool :=
  match p with
  | Parent k | Handle k _ | Locked k _ | Unlocked k _ => negb (is_read k)
  | Owned _ _ => true
  | _ => false
  end.

Definition has_handle (o : nat) (p : phase) : bool :=
  match p with
  | Handle _ o' | Locked _ o' | Unlocked _ o' | Owned _ o' | Inside _ o'
  | Written o' | Tail o' => Nat.eqb o o'
  | _ => false
  end.

Definition has_lock (o : nat) (p : phase) : bool :=
  match p with
  | Locked _ o' | Owned _ o' | Inside _ o' | Written o' => Nat.eqb o o'
  | _ => false
  end.

Definition has_write (o : nat) (p : phase) : bool :=
  match p with
  | Locked k o' | Inside k o' => negb (is_read k) && Nat.eqb o o'
  | Owned _ o' | Written o' => Nat.eqb o o'
  | _ => false
  end.

(** Does nobody but task [t] satisfy [f]? *)
Fixpoint others (f : phase -> bool) (t : nat) (ps : list phase) {struct ps}
  : bool :=
  match ps, t with
  | [], _ => true
  | _ :: r, O => forallb (fun p => negb (f p)) r
  | p :: r, S t' => negb (f p) && others f t' r
  end.

Fixpoint set_task (t : nat) (p : phase) (ps : list phase) {struct ps}
  : list phase :=
  match ps, t with
  | [], _ => []
  | _ :: r, O => p :: r
  | q :: r, S t' => q :: set_task t' p r
  end.

Fixpoint set_obj (o : nat) (v : Z) (l : list Z) {struct l} : list Z :=
  match l, o with
  | [], _ => []
  | _ :: r, O => v :: r
  | x :: r, S o' => x :: set_obj o' v r
  end.

Inductive outcome := Blocked | Panic | Next (s : st).

Definition goto (s : st) (t : nat) (p : phase) : outcome :=
  Next (mkSt (set_task t p (tasks s)) (ptr s) (cache s) (disk s) (objs s)
             (log s)).

Definition goto_log (s : st) (t : nat) (p : phase) (e : entry) : outcome :=
  Next (mkSt (set_task t p (tasks s)) (ptr s) (cache s) (disk s) (objs s)
             (e :: log s)).

(** Reads the node for a reader: from the cache, or from disk into the cache
    (cache/mod.rs get_or_insert, idml/idml.rs 562-580). *)
Definition do_get (s : st) (t : nat) : outcome :=
  match cache s with
  | Some o => goto s t (Handle Read o)
  | None =>
    let o := length (objs s) in
    Next (mkSt (set_task t (Handle Read o) (tasks s)) (ptr s) (Some o)
               (disk s) (objs s ++ [disk s]) (log s))
  end.

(** Removes the node from the cache and the disk and hands it to the caller
    (idml/idml.rs 582-608): the cached object, or one made from the disk's
    contents.  [disk s] keeps its value, although it is no longer used. *)
Definition do_pop (s : st) (t : nat) (k : kind) : outcome :=
  match cache s with
  | Some o =>
    Next (mkSt (set_task t (Handle k o) (tasks s)) (ptr s) None (disk s)
               (objs s) (log s))
  | None =>
    let o := length (objs s) in
    Next (mkSt (set_task t (Handle k o) (tasks s)) (ptr s) None (disk s)
               (objs s ++ [disk s]) (log s))
  end.

(** [Arc::try_unwrap] and [RwLock::try_unwrap]: succeed only for the last
    handle.  The cache has a handle, too. *)
Definition alone (s : st) (t : nat) (o : nat) : bool :=
  others (has_handle o) t (tasks s) &&
  match cache s with Some c => negb (Nat.eqb o c) | None => true end.

(** What a task does next. *)
Definition advance (s : st) (t : nat) (p : phase) : outcome :=
  match p with
  (* tree/mod.rs 1100 and, for the lower levels, 1126-1129: a reader has the
     parent's lock; 1263, 1499: others lock it exclusively. *)
  | Start k =>
    if (if is_read k then others holds_parent_excl t (tasks s)
        else others holds_parent t (tasks s))
    then goto_log s t (Parent k) (Began t)
    else Blocked
  | Parent k =>
    match ptr s, k with
    (* nothing here *)
    | Gone, Read => goto_log s t Done (Saw t None)
    | Gone, _ => goto s t Done
    (* node.rs 1043-1052 *)
    | Disk, Read => do_get s t
    (* node.rs 835-842; tree/mod.rs 2040 *)
    | Disk, Modify _ | Disk, Purge | Disk, Rewrite => do_pop s t k
    (* tree/mod.rs 998: only dirty nodes are flushed *)
    | Disk, Flush => goto s t Done
    (* tree/mod.rs 2480-2485, 2517-2520: already dirty *)
    | Mem _, Rewrite => goto s t Done
    (* node.rs 1037-1042, 829-833; tree/mod.rs 1006, 2058 *)
    | Mem o, _ => goto s t (Handle k o)
    end
  | Handle Read o =>
    if others (has_write o) t (tasks s) then goto s t (Locked Read o)
    else Blocked
  (* node.rs 843, tree/mod.rs 1006; of a node in memory only the lock is
     needed: node.rs 829-833 *)
  | Handle (Modify v) o =>
    if others (has_lock o) t (tasks s)
    then match ptr s with
         | Mem _ => goto s t (Owned v o)
         | _ => goto s t (Locked (Modify v) o)
         end
    else Blocked
  | Handle Flush o =>
    if others (has_lock o) t (tasks s) then goto s t (Locked Flush o)
    else Blocked
  (* tree/mod.rs 2486-2495, 2523-2535: puts the popped object at another
     address and into the cache again.  Writing it locks it for reading, and
     panics if that is not possible (node.rs 1508-1514). *)
  | Handle Rewrite o =>
    if others (has_write o) t (tasks s)
    then Next (mkSt (set_task t Done (tasks s)) Disk (Some o)
                    (nth o (objs s) 0) (objs s) (log s))
    else Panic
  (* tree/mod.rs 2042-2059: takes the leaf without locking it *)
  | Handle Purge o =>
    if alone s t o
    then Next (mkSt (set_task t Done (tasks s)) Gone None (disk s) (objs s)
                    (Wrote None :: log s))
    else Panic
  (* tree/mod.rs 1127, drop(node): the parent's guard *)
  | Locked Read o => goto s t (Inside Read o)
  (* node.rs 848, tree/mod.rs 1007: drop(guard) *)
  | Locked k o => goto s t (Unlocked k o)
  (* node.rs 849-856 *)
  | Unlocked (Modify v) o =>
    if alone s t o
    then Next (mkSt (set_task t (Owned v o) (tasks s)) (Mem o) (cache s)
                    (disk s) (objs s) (log s))
    else Panic
  (* tree/mod.rs 1008-1014, 2186-2197: takes the node out of its lock and
     writes it; idml/idml.rs 660: put inserts it in the cache *)
  | Unlocked Flush o =>
    if alone s t o
    then Next (mkSt (set_task t Done (tasks s)) Disk (Some o)
                    (nth o (objs s) 0) (objs s) (log s))
    else Panic
  (* tree/mod.rs 1314, 2129, drop(parent).  An insertion into a leaf keeps
     the parent's lock until it is done (1308-1312); letting go of it early
     allows more, not less. *)
  | Owned v o => goto s t (Inside (Modify v) o)
  (* tree/mod.rs 1117-1119, then the first part of dropping the
     TreeReadGuard (node.rs 784): its first field *)
  | Inside Read o => goto_log s t (Tail o) (Saw t (nth_error (objs s) o))
  (* tree/mod.rs 1340-1375, insert_leaf_no_split; 2144-2149 *)
  | Inside (Modify v) o =>
    Next (mkSt (set_task t (Written o) (tasks s)) (ptr s) (cache s) (disk s)
               (set_obj o v (objs s)) (Wrote (Some v) :: log s))
  | Written o => goto s t (Tail o)
  (* the second part of dropping a guard *)
  | Tail o => goto s t Done
  (* not phases of any task *)
  | Unlocked _ _ | Inside _ _ | Done => Blocked
  end.

(** The same, but a guard is dropped in one step.  This is not in the code:
    it is what happens if no other thread runs between the two parts. *)
Definition advance_prompt (s : st) (t : nat) (p : phase) : outcome :=
  match p with
  | Inside Read o => goto_log s t Done (Saw t (nth_error (objs s) o))
  | Written o => goto s t Done
  | _ => advance s t p
  end.

(** [Run t]: task [t] takes a step; [Prompt t]: the same, without a pause
    while it drops a guard; [Evict]: the cache drops the node (cache/lru.rs
    46-60, drop_cache and expire). *)
Inductive event := Run (t : nat) | Prompt (t : nat) | Evict.

Definition step (e : event) (s : st) : outcome :=
  match e with
  | Run t =>
    match nth_error (tasks s) t with
    | Some p => advance s t p
    | None => Blocked
    end
  | Prompt t =>
    match nth_error (tasks s) t with
    | Some p => advance_prompt s t p
    | None => Blocked
    end
  | Evict => Next (mkSt (tasks s) (ptr s) None (disk s) (objs s) (log s))
  end.

(** A run.  Blocked steps wait: they change nothing.  *)
Fixpoint run (es : list event) (s : st) : option st :=
  match es with
  | [] => Some s
  | e :: r =>
    match step e s with
    | Blocked => run r s
    | Panic => None
    | Next s' => run r s'
    end
  end.

(** The node is on disk with contents [v] and nobody has begun. *)
Definition fresh (ks : list kind) (v : Z) : st :=
  mkSt (map Start ks) Disk None v [] [Wrote (Some v)].
