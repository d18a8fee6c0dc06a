(** The daemon's socket and lock file: bfffs/src/bin/bfffsd/main.rs 70-108.

    Any number of daemons are started with the same socket path, which does not end in .lock.  Each system call is one
    step, except that [open] with O_EXLOCK is two, as in the kernel: it finds or makes the file, then waits for the lock
    of that file.  Locks belong to files, not names, and last until their process ends, since the descriptor is never
    closed.  Failures of the file system are left out. *)
From Coq Require Import List Arith Bool.
Import ListNotations.

Definition pid := nat.
Definition inode := nat.

Inductive phase :=
| Idle                    (* not started *)
| Waiting (i : inode)     (* 92-96: the file is open, the lock not held *)
| Locked (i : inode)      (* 101 *)
| Cleared (i : inode)     (* 101 done *)
| Serving (i : inode)     (* 102-107: bound *)
| Closing (i : inode)     (* 80 done: the socket removed *)
| Closed (i : inode)      (* 82 done: the lock file removed *)
| Dead.                   (* the process has ended *)

Record state := St {
  phases : pid -> phase;
  lockfile : option inode;      (* what the name of the lock file refers to *)
  sock : option pid;            (* whose socket the socket path refers to *)
  next : inode }.

Definition init : state := St (fun _ => Idle) None None 0.
Definition upd (f : pid -> phase) (p : pid) (x : phase) : pid -> phase := fun q => if q =? p then x else f q.

(** the file whose lock a process holds *)
Definition holds (x : phase) : option inode :=
  match x with Locked i | Cleared i | Serving i | Closing i | Closed i => Some i | _ => None end.

Inductive event := Open (p : pid) | Lock (p : pid) | Clear (p : pid) | Bind (p : pid) | Unsock (p : pid) | Unlock (p : pid) | Exit (p : pid).

(** [others]: the processes there are *)
Definition free (s : state) (others : list pid) (i : inode) : bool :=
  forallb (fun q => match holds (phases s q) with Some j => negb (j =? i) | None => true end) others.

(** 88-108 [Socket::new]; 77-85 [Drop for Socket]: [Unsock] and [Unlock], which the program never comes to (see [as_is] in Lock_Props); [Exit] at any time: a crash, a kill, or a panic, after which the drop does nothing *)
Definition step (others : list pid) (s : state) (e : event) : option state :=
  match e with
  | Open p =>
    match phases s p with
    | Idle => match lockfile s with
              | Some i => Some (St (upd (phases s) p (Waiting i)) (Some i) (sock s) (next s))
              | None => Some (St (upd (phases s) p (Waiting (next s))) (Some (next s)) (sock s) (S (next s)))
              end
    | _ => None
    end
  | Lock p =>
    match phases s p with
    | Waiting i => if free s others i then Some (St (upd (phases s) p (Locked i)) (lockfile s) (sock s) (next s)) else None
    | _ => None
    end
  | Clear p =>
    match phases s p with
    | Locked i => Some (St (upd (phases s) p (Cleared i)) (lockfile s) None (next s))
    | _ => None
    end
  | Bind p =>
    match phases s p, sock s with
    | Cleared i, None => Some (St (upd (phases s) p (Serving i)) (lockfile s) (Some p) (next s))
    | Cleared i, Some _ => Some (St (upd (phases s) p Dead) (lockfile s) (sock s) (next s))      (* 102: unwrap *)
    | _, _ => None
    end
  | Unsock p =>
    match phases s p with
    | Serving i => Some (St (upd (phases s) p (Closing i)) (lockfile s) None (next s))
    | _ => None
    end
  | Unlock p =>
    match phases s p with
    | Closing i => Some (St (upd (phases s) p (Closed i)) None (sock s) (next s))
    | _ => None
    end
  | Exit p =>
    match phases s p with
    | Idle | Dead => None
    | _ => Some (St (upd (phases s) p Dead) (lockfile s) (sock s) (next s))
    end
  end.

Fixpoint run (others : list pid) (s : state) (es : list event) : option state :=
  match es with
  | [] => Some s
  | e :: r => match step others s e with Some s' => run others s' r | None => None end
  end.
