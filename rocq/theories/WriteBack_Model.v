(** The writeback credit bank: writeback/writeback.rs:28-302, as threads whose atomic
    instructions interleave.  [supply] is the raw AtomicIsize (twice the bytes, plus the
    "there are sleepers" bit).  All read-modify-writes of one atomic are totally ordered,
    whatever their memory ordering, so interleaving them is exact for [supply]; [sleepers]
    is only touched with its mutex held.  isize overflow is not modelled.
    A thread holds at most one Credit; a task with several is several threads. *)
From Verif Require Import Common.

Inductive pc :=
| Idle
| B1 (w : Z)            (* borrow: before supply.fetch_sub           writeback.rs:232 *)
| B2 (w old : Z)        (* must sleep; before locking the sleepers   :239 *)
| B3 (w old : Z)        (* locked; before supply.fetch_add           :247 *)
| B4 (w : Z)            (* locked, no race seen; before push_back and fetch_or  :253-256 *)
| Sleep (w : Z)         (* waiting for its oneshot                   :257 *)
| Gone (w : Z)          (* its future was dropped while asleep *)
| Woken (w : Z)         (* oneshot sent, future not polled yet *)
| Leaked (w : Z)        (* its future was dropped between the two *)
| Hold (c : Z)          (* owns a Credit *)
| A0                    (* awaken: before locking                    :194 *)
| A1                    (* locked, top of the loop                   :195 *)
| A2 (w : Z)            (* locked, not enough; before fetch_add      :200 *)
| A3 (w : Z)            (* locked, enough; before pop_front and send :203-205 *)
| A4 (w : Z)            (* locked, receiver gone; before fetch_add   :207 *)
| Panicked.

Record st := St { cap : Z; supply : Z; sleepers : list (nat * Z); lock : option nat; th : list pc }.

(** writeback.rs:291-298 *)
Definition with_capacity (bytes : Z) (threads : nat) : st :=
  St (2 * bytes) (2 * bytes) [] None (repeat Idle threads).

Definition pc_of (s : st) (t : nat) : pc := nth t (th s) Idle.
Definition goto (s : st) (t : nat) (p : pc) : st := St (cap s) (supply s) (sleepers s) (lock s) (list_upd (th s) t p).
Definition add_supply (s : st) (x : Z) : st := St (cap s) (supply s + x) (sleepers s) (lock s) (th s).
Definition set_lock (s : st) (o : option nat) : st := St (cap s) (supply s) (sleepers s) o (th s).
Definition set_sleepers (s : st) (l : list (nat * Z)) : st := St (cap s) (supply s) l (lock s) (th s).
Definition set_supply (s : st) (x : Z) : st := St (cap s) x (sleepers s) (lock s) (th s).

Definition flag (x : Z) : bool := Z.land x 1 =? 1.
Definition bits_clear (x : Z) : Z := Z.land x (Z.lnot 1).
Definition bits_set (x : Z) : Z := Z.lor x 1.

(** One atomic instruction of thread [t] inside borrow or awaken; no effect if [t] is not
    inside a call or must wait for the mutex. *)
Definition adv (s : st) (t : nat) : st :=
  match pc_of s t with
  | B1 w =>                                                   (* writeback.rs:232-233,259 *)
    let old := supply s in
    goto (add_supply s (- w)) t (if (old <? w) || flag old then B2 w old else Hold w)
  | B2 w old =>                                               (* :239 *)
    match lock s with None => goto (set_lock s (Some t)) t (B3 w old) | Some _ => s end
  | B3 w old =>                                               (* :247-251; [continue] unlocks *)
    let locked_supply := supply s in
    let s := add_supply s w in
    if locked_supply =? old - w then goto s t (B4 w) else goto (set_lock s None) t (B1 w)
  | B4 w =>                                                   (* :253-257 *)
    goto (set_lock (set_supply (set_sleepers s (sleepers s ++ [(t, w)])) (bits_set (supply s))) None) t (Sleep w)
  | A0 => match lock s with None => goto (set_lock s (Some t)) t A1 | Some _ => s end
  | A1 =>
    match sleepers s with
    | (_, w) :: _ =>                                          (* :196-198 *)
      let old := supply s in
      goto (add_supply s (- w)) t (if old <? w then A2 w else A3 w)
    | [] => goto (set_lock (set_supply s (bits_clear (supply s))) None) t Idle    (* :212 *)
    end
  | A2 w => goto (set_lock (add_supply s w) None) t Idle      (* :200-201 *)
  | A3 w =>                                                   (* :203-205 *)
    match sleepers s with
    | (t', _) :: rest =>
      let s := set_sleepers s rest in
      match pc_of s t' with
      | Sleep w' => goto (goto s t' (Woken w')) t A1
      | _ => goto s t (A4 w)
      end
    | [] => s
    end
  | A4 w => goto (add_supply s w) t A1                        (* :207 *)
  | _ => s
  end.

Inductive action :=
| Borrow (t : nat) (size : Z)      (* call borrow(size) *)
| Repay (t : nat)                  (* call repay with the thread's credit *)
| Adv (t : nat)
| Poll (t : nat)                   (* poll the future after its wake-up *)
| Abandon (t : nat)                (* drop the future *)
| Split (t t' : nat) (x : Z)       (* t gives part of its credit to t' (Credit::isplit of x bytes) *)
| Merge (t t' : nat).              (* t absorbs t''s credit (Credit::extend) *)

Definition exec (s : st) (a : action) : st :=
  match a with
  | Borrow t size =>                                          (* :222-226 *)
    match pc_of s t with
    | Idle => goto s t (if cap s <? 2 * size then Panicked else B1 (2 * size))
    | _ => s
    end
  | Repay t =>                                                (* :274-289 *)
    match pc_of s t with
    | Hold c =>
      if c =? 0 then goto s t Idle
      else
        let old := supply s in
        if cap s <? bits_clear old + c then goto (add_supply s c) t Panicked
        else goto (add_supply s c) t (if flag old then A0 else Idle)
    | _ => s
    end
  | Adv t => adv s t
  | Poll t => match pc_of s t with Woken w => goto s t (Hold w) | _ => s end
  | Abandon t =>
    match pc_of s t with
    | Sleep w => goto s t (Gone w)
    | Woken w => goto s t (Leaked w)
    | _ => s
    end
  | Split t t' x =>                                           (* :79-95; callers never overdraw *)
    match pc_of s t, pc_of s t' with
    | Hold c, Idle => if (0 <=? x) && (2 * x <=? c) && (t' <? length (th s))%nat then goto (goto s t (Hold (c - 2 * x))) t' (Hold (2 * x)) else s
    | _, _ => s
    end
  | Merge t t' =>                                             (* :49-52 *)
    match pc_of s t, pc_of s t' with
    | Hold c, Hold c' => if (t =? t')%nat then s else goto (goto s t (Hold (c + c'))) t' Idle
    | _, _ => s
    end
  end.

Definition run (s : st) (l : list action) : st := fold_left exec l s.
