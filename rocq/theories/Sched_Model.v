(** The disk scheduler: Inner and BlockOp, bfffs-core/src/vdev_block.rs:52-660.

    The BinaryHeaps are lists.  Which of several minimal elements a heap yields depends on its layout; the model takes it from
    the parameter [pick], any function that picks a minimal element.  As requests have distinct numbers, a heap's content never
    recurs in one history without the heap being unchanged, so this loses no behaviour.
    Buffers are an identity and a length in bytes.  Completion channels are the numbers of the requests; that their receivers
    may have been dropped (a panic, vdev_block.rs:500,524,534) is not modelled.
    The device's answer to a poll is an input: [Eagain], [Pending] (accepted, in flight) or [Ready] (accepted, done at once). *)
From Verif Require Import Common.

Record buf := Buf { b_id : Z; b_len : Z }.
(** vdev_block.rs:52-67 *)
Inductive cmd :=
| OpenZone
| ReadAt (b : buf)
| ReadSpacemap (b : buf)
| ReadvAt (l : list buf)
| WriteAt (b : buf)
| WritevAt (l : list buf)
| EraseZone (start : Z)
| FinishZone (start : Z)
| WriteLabel
| WriteSpacemap (l : list buf)
| SyncAll.
(** vdev_block.rs:100-114 *)
Definition discriminant (c : cmd) : Z :=
  match c with
  | OpenZone => 0 | ReadAt _ => 1 | ReadSpacemap _ => 2 | ReadvAt _ => 3 | WriteAt _ => 4 | WritevAt _ => 5
  | EraseZone _ => 6 | FinishZone _ => 7 | WriteLabel => 8 | WriteSpacemap _ => 9 | SyncAll => 10
  end.
(** BlockOp, vdev_block.rs:145-153 *)
Record op := Op { o_lba : Z; o_cmd : cmd; o_senders : list nat }.
(** vdev_block.rs:127-132: commands are equal if of the same type *)
Definition is_sync (o : op) : bool := match o_cmd o with SyncAll => true | _ => false end.
(** BlockOp::cmp, vdev_block.rs:158-173: [ole a b] if [a] is to be issued first *)
Definition ole (a b : op) : Prop := o_lba a < o_lba b \/ (o_lba a = o_lba b /\ discriminant (o_cmd a) <= discriminant (o_cmd b)).

Definition LBA : Z := 4096.
Definition sglist_len (l : list buf) : Z := fold_right (fun b a => b_len b + a) 0 l.

(** BlockOp::can_accumulate, vdev_block.rs:188-246 *)
Definition can_accumulate (iov_max : option Z) (a b : op) : bool :=
  let bytes_ok len0 := o_lba b =? o_lba a + len0 / LBA in
  let iov_ok n0 n1 := match iov_max with Some m => n0 + n1 <=? m | None => true end in
  match o_cmd a, o_cmd b with
  | ReadAt x, ReadAt _ => bytes_ok (b_len x)
  | ReadAt x, ReadvAt l => bytes_ok (b_len x) && iov_ok 1 (zlen l)
  | ReadvAt k, ReadAt _ => bytes_ok (sglist_len k) && iov_ok (zlen k) 1
  | ReadvAt k, ReadvAt l => bytes_ok (sglist_len k) && iov_ok (zlen k) (zlen l)
  | SyncAll, SyncAll => true
  | WriteAt x, WriteAt _ => bytes_ok (b_len x)
  | WriteAt x, WritevAt l => bytes_ok (b_len x) && iov_ok 1 (zlen l)
  | WritevAt k, WriteAt _ => bytes_ok (sglist_len k) && iov_ok (zlen k) 1
  | WritevAt k, WritevAt l => bytes_ok (sglist_len k) && iov_ok (zlen k) (zlen l)
  | _, _ => false
  end.
(** BlockOp::accumulate, vdev_block.rs:256-310; [None] is [todo!()].  [other] has one sender there (debug_assert). *)
Definition accumulate (a b : op) : option op :=
  let cmd := match o_cmd a, o_cmd b with
             | SyncAll, SyncAll => Some SyncAll
             | ReadAt x, ReadAt y => Some (ReadvAt [x; y])
             | ReadAt x, ReadvAt l => Some (ReadvAt (x :: l))
             | ReadvAt k, ReadAt y => Some (ReadvAt (k ++ [y]))
             | ReadvAt k, ReadvAt l => Some (ReadvAt (k ++ l))
             | WriteAt x, WriteAt y => Some (WritevAt [x; y])
             | WriteAt x, WritevAt l => Some (WritevAt (x :: l))
             | WritevAt k, WriteAt y => Some (WritevAt (k ++ [y]))
             | WritevAt k, WritevAt l => Some (WritevAt (k ++ l))
             | _, _ => None
             end in
  match cmd with Some c => Some (Op (o_lba a) c (o_senders a ++ o_senders b)) | None => None end.

(** Inner, vdev_block.rs:371-427.  [s_inflight] are the futures spawned at vdev_block.rs:520; [s_timers] counts the
    [ReschedFut]s that exist and have not run; [s_count] is the number of requests submitted so far (ghost). *)
Record inner := Inner {
  s_delayed : option op; s_qd : Z; s_last : Z; s_remover : bool; s_syncing : bool;
  s_ahead : list op; s_behind : list op; s_after : list op;
  s_inflight : list op; s_timers : nat; s_count : nat }.
(** vdev_block.rs:798-812 *)
Definition new_inner : inner := Inner None 0 0 false false [] [] [] [] 0 0.

Definition set_queue (s : inner) (last : Z) (sy : bool) (ah be af : list op) : inner :=
  Inner (s_delayed s) (s_qd s) last (s_remover s) sy ah be af (s_inflight s) (s_timers s) (s_count s).
Definition set_qd (s : inner) (q : Z) : inner :=
  Inner (s_delayed s) q (s_last s) (s_remover s) (s_syncing s) (s_ahead s) (s_behind s) (s_after s) (s_inflight s) (s_timers s) (s_count s).
Definition set_delayed (s : inner) (d : option op) : inner :=
  Inner d (s_qd s) (s_last s) (s_remover s) (s_syncing s) (s_ahead s) (s_behind s) (s_after s) (s_inflight s) (s_timers s) (s_count s).
Definition set_inflight (s : inner) (f : list op) : inner :=
  Inner (s_delayed s) (s_qd s) (s_last s) (s_remover s) (s_syncing s) (s_ahead s) (s_behind s) (s_after s) f (s_timers s) (s_count s).
Definition set_remover (s : inner) (b : bool) : inner :=
  Inner (s_delayed s) (s_qd s) (s_last s) b (s_syncing s) (s_ahead s) (s_behind s) (s_after s) (s_inflight s) (s_timers s) (s_count s).
Definition set_timers (s : inner) (t : nat) : inner :=
  Inner (s_delayed s) (s_qd s) (s_last s) (s_remover s) (s_syncing s) (s_ahead s) (s_behind s) (s_after s) (s_inflight s) t (s_count s).
Definition set_count (s : inner) (c : nat) : inner :=
  Inner (s_delayed s) (s_qd s) (s_last s) (s_remover s) (s_syncing s) (s_ahead s) (s_behind s) (s_after s) (s_inflight s) (s_timers s) c.

(** Inner::sched, vdev_block.rs:633-642 *)
Definition sched (s : inner) (o : op) : inner :=
  if is_sync o || s_syncing s then set_queue s (s_last s) true (s_ahead s) (s_behind s) (s_after s ++ [o])
  else if s_last s <=? o_lba o then set_queue s (s_last s) (s_syncing s) (s_ahead s ++ [o]) (s_behind s) (s_after s)
  else set_queue s (s_last s) (s_syncing s) (s_ahead s) (s_behind s ++ [o]) (s_after s).

(** the loop of vdev_block.rs:607-617 over the operations that follow a sync *)
Fixpoint release (s : inner) (l : list op) : inner :=
  match l with
  | [] => set_queue s (s_last s) (s_syncing s) (s_ahead s) (s_behind s) []
  | o :: r => if is_sync o then set_queue s (s_last s) true (s_ahead s) (s_behind s) l
              else release (sched s o) r
  end.

Fixpoint remove_nth {A} (n : nat) (l : list A) : list A :=
  match l, n with
  | [], _ => []
  | _ :: r, O => r
  | x :: r, S m => x :: remove_nth m r
  end.

Section Run.
Context (pick : list op -> nat) (opt : Z) (iov_max : option Z).

(** BinaryHeap::peek and pop *)
Definition heap_peek (h : list op) : option op := nth_error h (pick h).
Definition heap_pop (h : list op) : option (op * list op) :=
  match heap_peek h with Some o => Some (o, remove_nth (pick h) h) | None => None end.

(** Inner::peek_op, vdev_block.rs:575-585 *)
Definition peek_op (s : inner) : option op :=
  match heap_peek (s_ahead s) with
  | Some o => Some o
  | None => match heap_peek (s_behind s) with
            | Some o => Some o
            | None => match s_after s with o :: _ => Some o | [] => None end
            end
  end.
(** Inner::pop_op, vdev_block.rs:588-624; [None] is a panic, [Some (None, _)] an empty queue *)
Definition pop_op (s : inner) : option (option op * inner) :=
  match heap_pop (s_ahead s) with
  | Some (o, ah) => Some (Some o, set_queue s (o_lba o) (s_syncing s) ah (s_behind s) (s_after s))
  | None =>
      match heap_pop (s_behind s) with
      | Some (o, be) => Some (Some o, set_queue s (o_lba o) (s_syncing s) be (s_ahead s) (s_after s))
      | None =>
          if s_syncing s then
            match s_after s with
            | [] => None
            | o :: r => if is_sync o then Some (Some o, release (set_queue s (s_last s) false (s_ahead s) (s_behind s) []) r)
                        else Some (Some o, set_queue s (s_last s) (s_syncing s) (s_ahead s) (s_behind s) r)
            end
          else Some (None, s)
      end
  end.

Definition pending (s : inner) : list op := s_ahead s ++ s_behind s ++ s_after s.

(** the loop of vdev_block.rs:438-443; [fuel] is at least the number of pending operations *)
Fixpoint coalesce (fuel : nat) (o : op) (s : inner) : option (op * inner) :=
  match fuel with
  | O => Some (o, s)
  | S n =>
      match peek_op s with
      | Some o2 =>
          if can_accumulate iov_max o o2 then
            match pop_op s with
            | Some (Some o3, s') => match accumulate o o3 with Some o' => coalesce n o' s' | None => None end
            | _ => None
            end
          else Some (o, s)
      | None => Some (o, s)
      end
  end.

Inductive answer := Eagain | Pending | Ready.
(** [Issued]: the device accepted the operation; [Cancelled]: its requesters got ENXIO; [Notified]: its requesters got the
    device's result; [Removed]: the remover was told *)
Inductive event := Issued (o : op) | Cancelled (o : op) | Notified (o : op) | Removed.

(** u32 subtraction in a release build *)
Definition dec (q : Z) : Z := (q - 1) mod 2 ^ 32.
(** vdev_block.rs:498-503: one decrement for each sender *)
Fixpoint dec_each (l : list nat) (q : Z) : Z := match l with [] => q | _ :: r => dec_each r (dec q) end.

(** Inner::issue_fut, vdev_block.rs:490-541: [Some (s, ev, again)] where [again] is false if the operation was delayed.
    [retry] says that the operation's future was polled before.  The future of sync_all cannot be polled again once it has
    returned EAGAIN: vdev_file.rs:454-457 uses combinators that panic then (vdev_file.rs:570-575 says why the others do not). *)
Definition issue_fut (s : inner) (o : op) (retry : bool) (a : answer) : option (inner * list event * bool) :=
  if s_remover s then Some (set_qd s (dec_each (o_senders o) (s_qd s)), [Cancelled o], true)
  else if retry && is_sync o then None
  else match a with
       | Eagain => Some (set_delayed s (Some o), [], false)
       | Pending => Some (set_inflight s (s_inflight s ++ [o]), [Issued o], true)
       | Ready => Some (set_qd s (dec (s_qd s)), [Issued o; Notified o], true)
       end.

(** the loop of Inner::issue_all, vdev_block.rs:433-472.  An answer is consumed for each poll of the device, [Pending] if none
    is left. *)
Fixpoint issue_loop (fuel : nat) (s : inner) (ans : list answer) : option (inner * list event) :=
  match fuel with
  | O => Some (s, [])
  | S n =>
      if s_qd s <? opt then
        let next := match s_delayed s with
                    | Some o => Some (Some (o, true), set_delayed s None)
                    | None => match pop_op s with
                              | None => None
                              | Some (None, s') => Some (None, s')
                              | Some (Some o, s') =>
                                  match coalesce (length (pending s')) o s' with
                                  | Some (o', s'') => Some (Some (o', false), set_qd s'' (s_qd s'' + 1))
                                  | None => None
                                  end
                              end
                    end in
        match next with
        | None => None
        | Some (None, s') => Some (s', [])
        | Some (Some (o, retry), s') =>
            let (a, ans') := if s_remover s' then (Pending, ans) else match ans with [] => (Pending, []) | a :: r => (a, r) end in
            match issue_fut s' o retry a with
            | None => None
            | Some (s2, ev, true) => match issue_loop n s2 ans' with Some (s3, ev') => Some (s3, ev ++ ev') | None => None end
            | Some (s2, ev, false) =>
                (* delayed; if nothing else is in flight, try again after 10 ms *)
                Some ((if s_qd s2 =? 1 then set_timers s2 (S (s_timers s2)) else s2), ev)
            end
        end
      else Some (s, [])
  end.
(** Inner::issue_all, vdev_block.rs:432-484 *)
Definition issue_all (s : inner) (ans : list answer) : option (inner * list event) :=
  match issue_loop (S (S (length (pending s)))) s ans with
  | None => None
  | Some (s', ev) => if (s_qd s' =? 0) && s_remover s' then Some (set_remover s' false, ev ++ [Removed]) else Some (s', ev)
  end.

(** What can happen: a request is submitted (VdevBlockFut::poll, vdev_block.rs:670-676); an operation in flight finishes
    (vdev_block.rs:520-528); a [ReschedFut] runs (vdev_block.rs:653-660); the disk is removed (RemoveFut::poll,
    vdev_block.rs:709-714). *)
Inductive input := Submit (lba : Z) (c : cmd) (ans : list answer) | Finish (i : nat) | Wake (ans : list answer) | Remove (ans : list answer).
Definition step (s : inner) (i : input) : option (inner * list event) :=
  match i with
  | Submit lba c ans =>
      let s1 := sched s (Op lba c [s_count s]) in
      issue_all (set_count s1 (S (s_count s))) ans
  | Finish i => match nth_error (s_inflight s) i with
                | None => Some (s, [])
                | Some o => Some (set_timers (set_qd (set_inflight s (remove_nth i (s_inflight s))) (dec (s_qd s))) (S (s_timers s)), [Notified o])
                end
  | Wake ans => match s_timers s with O => Some (s, []) | S t => issue_all (set_timers s t) ans end
  | Remove ans => if s_remover s then None else issue_all (set_remover s true) ans
  end.
Fixpoint run (s : inner) (l : list input) : option (inner * list event) :=
  match l with
  | [] => Some (s, [])
  | i :: r => match step s i with
              | None => None
              | Some (s1, e1) => match run s1 r with Some (s2, e2) => Some (s2, e1 ++ e2) | None => None end
              end
  end.
End Run.
