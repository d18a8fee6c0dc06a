(** Cache misses by concurrent tasks: the macro get_or_insert! in cache/mod.rs:208-248,
    for one key.  Each step holds the cache's mutex once, as the code does.
    Other keys matter only in that inserting them may evict this one ([Evict]). *)
From Verif Require Import Common.

(** What a task's call is doing. *)
Inductive task :=
| Idle        (* not called yet *)
| Reading     (* missed; its read is in flight *)
| Waiting     (* missed; waits for the reader's message *)
| Woken       (* the message was sent, not yet polled *)
| Answered    (* returned the record *)
| Failed      (* returned the read's error *)
| Cancelled   (* future dropped while waiting *)
| Panicked.

Record st := St { cached : bool; pending : option (list nat); tasks : nat -> task; poisoned : bool }.

Inductive step :=
| Request (t : nat)
| ReadOk (t : nat)
| ReadErr (t : nat)
| Poll (t : nat)
| Cancel (t : nat)
| Evict.

Definition upd (f : nat -> task) (t : nat) (x : task) : nat -> task := fun t' => if (t' =? t)%nat then x else f t'.

Definition is_cancelled (f : nat -> task) (t : nat) : bool := match f t with Cancelled => true | _ => false end.

(** [s.send(()).unwrap()] to every waiter (cache/mod.rs:239-242): panics, with the mutex
    held, at the first one whose future was dropped. *)
Fixpoint wake (f : nat -> task) (l : list nat) : option (nat -> task) :=
  match l with
  | [] => Some f
  | t :: l' => if is_cancelled f t then None else wake (upd f t Woken) l'
  end.

(** The tasks woken before such a panic stay woken. *)
Fixpoint wake_until (f : nat -> task) (l : list nat) : nat -> task :=
  match l with
  | [] => f
  | t :: l' => if is_cancelled f t then f else wake_until (upd f t Woken) l'
  end.

Definition exec (s : st) (a : step) : st :=
  match a with
  | Request t =>
    match tasks s t with
    | Idle =>
      if poisoned s then St (cached s) (pending s) (upd (tasks s) t Panicked) true
      else if cached s then St true (pending s) (upd (tasks s) t Answered) false
      else match pending s with
           | Some v => St false (Some (v ++ [t])) (upd (tasks s) t Waiting) false
           | None => St false (Some []) (upd (tasks s) t Reading) false
           end
    | _ => s
    end
  | ReadOk t =>
    match tasks s t with
    | Reading =>
      if poisoned s then St (cached s) (pending s) (upd (tasks s) t Panicked) true
      else match pending s with
           | Some v =>
             match wake (tasks s) v with
             | Some f => St true None (upd f t Answered) false
             | None => St true None (upd (wake_until (tasks s) v) t Panicked) true
             end
           | None => St true None (upd (tasks s) t Answered) false
           end
    | _ => s
    end
  | ReadErr t =>       (* map_ok does nothing on an error *)
    match tasks s t with
    | Reading => St (cached s) (pending s) (upd (tasks s) t Failed) (poisoned s)
    | _ => s
    end
  | Poll t =>
    match tasks s t with
    | Woken => if poisoned s then St (cached s) (pending s) (upd (tasks s) t Panicked) true
               else if cached s then St true (pending s) (upd (tasks s) t Answered) false
               else St false (pending s) (upd (tasks s) t Panicked) true (* .expect(..), mutex held *)
    | _ => s
    end
  | Cancel t =>
    match tasks s t with
    | Waiting => St (cached s) (pending s) (upd (tasks s) t Cancelled) (poisoned s)
    | _ => s
    end
  | Evict => St false (pending s) (tasks s) (poisoned s)
  end.

Definition run (s : st) (l : list step) : st := fold_left exec l s.
Definition init : st := St false None (fun _ => Idle) false.
