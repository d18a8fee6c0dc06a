(** The background task that cleans zones: bfffs-core/src/cleaner.rs 88-150, Cleaner, with database/database.rs 370-379 [clean] and 689-693 [shutdown].

    What one pass cleans is C82, C85 and C86.  A channel with a buffer of one is never full when every message is sent with a clone of the sender that was not
    used before (cleaner.rs 105): futures::channel::mpsc keeps a slot for each sender. *)
From Verif Require Import Common.

Inductive event :=
| Request (i : Z)     (* a client calls [clean]; [i] tells the calls apart *)
| Start               (* the task receives the next message and begins a pass *)
| Ends (ok : bool)    (* the pass ends; false: with an error *)
| Drop                (* [shutdown] drops the sender *)
| Exit.               (* the task ends *)

Inductive task := Running | Finished | Crashed.
(** what a client learns: the pass was made; the channel for the answer was dropped; or the call itself panics *)
Inductive answer := Cleaned | Canceled | Panics.

Record st := St { queue : list Z; cur : option Z; job : task; sender : bool; answers : list (Z * answer) }.
(** cleaner.rs 115-121 [new] *)
Definition fresh : st := St [] None Running true [].

(** None: not possible *)
Definition step (s : st) (e : event) : option st :=
  match e with
  | Request i => (* 103-113; 106-112: an error other than "full" is a panic.  After the shutdown there is nothing to call. *)
      if sender s then
        match job s with
        | Running => Some (St (queue s ++ [i]) (cur s) (job s) (sender s) (answers s))
        | _ => Some (St (queue s) (cur s) (job s) (sender s) (answers s ++ [(i, Panics)]))
        end
      else None
  | Start => (* 131: for_each takes the next message once the last future is done *)
      match job s, cur s, queue s with
      | Running, None, i :: q => Some (St q (Some i) Running (sender s) (answers s))
      | _, _, _ => None
      end
  | Ends ok =>
      match job s, cur s with
      | Running, Some i =>
          if ok then (* 134-138 *) Some (St (queue s) None Running (sender s) (answers s ++ [(i, Cleaned)]))
          else (* 133: [Error::unhandled] panics; the receiver and all the messages in it are dropped *)
            Some (St [] None Crashed (sender s) (answers s ++ map (fun j => (j, Canceled)) (i :: queue s)))
      | _, _ => None
      end
  | Drop => (* 144-147 *) if sender s then Some (St (queue s) (cur s) (job s) false (answers s)) else None
  | Exit => (* 131: the stream is over when all senders are gone and no message is left *)
      match job s, cur s, queue s, sender s with
      | Running, None, [], false => Some (St [] None Finished false (answers s))
      | _, _, _, _ => None
      end
  end.
Fixpoint run (s : st) (es : list event) : option st := match es with [] => Some s | e :: r => match step s e with Some s' => run s' r | None => None end end.

(** cleaner.rs 148: what waiting for the task gives; None: it waits, Some false: [unwrap] panics *)
Definition joined (s : st) : option bool := match job s with Running => None | Finished => Some true | Crashed => Some false end.
