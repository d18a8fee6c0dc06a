(** Commands given several properties, data sets or devices: bfffs/src/bin/bfffs/main.rs 172-201 ([fs create]), 500-521
    ([fs mount]), 523-546 ([fs set]), 784-807 ([pool fault]).

    The state of the daemon and its answers to single requests are parameters.  That clap splits a value at every
    comma, and keeps the pieces of repeated options in their order, is as documented; the crate is not in /repo.
    Each data set has its own connection; that it can be made is assumed (the commands panic otherwise). *)
From Coq Require Import String.
From Verif Require Import Common Prop_Model.
From Coq Require Import List.
Import ListNotations.
Open Scope Z_scope.

Definition COMMA : Z := 44.

(** clap, [value_delimiter(',')] *)
Fixpoint split_all (c : Z) (s : text) : list text :=
  match s with
  | [] => [[]]
  | x :: r => if x =? c then [] :: split_all c r
              else match split_all c r with w :: ws => (x :: w) :: ws | [] => [[x]] end
  end.

(** property.rs 146-192 on every word; clap, and [fs create], refuse all if one is refused *)
Fixpoint parse_words (ws : list text) : option (list property) :=
  match ws with
  | [] => Some []
  | w :: r => match parse_prop w, parse_words r with POk p, Some ps => Some (p :: ps) | _, _ => None end
  end.

Section S.
  Context {S E : Type}.

  (** [for x in xs { f(x).await? }] *)
  Fixpoint each {X} (f : S -> X -> S * option E) (s : S) (xs : list X) : S * option E :=
    match xs with
    | [] => (s, None)
    | x :: r => let (s', e) := f s x in match e with Some e => (s', Some e) | None => each f s' r end
    end.

  Inductive outcome := Refused | Ended (e : option E).

  (** 538-546 *)
  Definition set_cmd (fs_set : S -> text -> list property -> S * option E) (s : S) (arg : text) (datasets : list text) : S * outcome :=
    match parse_words (split_all COMMA arg) with
    | None => (s, Refused)
    | Some ps => let (s', e) := each (fun s d => fs_set s d ps) s datasets in (s', Ended e)
    end.

  (** 186-201; [opts]: the values of the options [-o] *)
  Definition create_cmd (fs_create : S -> text -> list property -> S * option E) (s : S) (opts : list text) (name : text) : S * outcome :=
    match parse_words (flat_map (split_all COMMA) opts) with
    | None => (s, Refused)
    | Some ps => let (s', e) := fs_create s name ps in (s', Ended e)
    end.

  (** 515-520 *)
  Definition mount_cmd (fs_mount : S -> text -> S * option E) (s : S) (opts : list text) (name : text) : S * outcome :=
    let (s', e) := fs_mount s name in (s', Ended e).

  (** 794-807; [as_uuid]: [Uuid::from_str] *)
  Inductive device := ByUuid (u : Z) | ByPath (p : text).
  Definition fault_cmd (as_uuid : text -> option Z) (pool_fault : S -> device -> S * option E) (s : S) (devices : list text) : S * outcome :=
    let (s', e) := each (fun s d => pool_fault s (match as_uuid d with Some u => ByUuid u | None => ByPath d end)) s devices in (s', Ended e).
End S.
Arguments outcome : clear implicits.
