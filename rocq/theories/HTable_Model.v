(** Hash tables stored in the B-tree: fs.rs:85-260.  The dataset is a map from keys to
    values (that the B-tree is such a map is C27).  An item is its identity (namespace and
    name, compared by [same]) and its payload.  [panic] is explicit. *)
From Verif Require Import Common.

Section HTable.
Context {N V : Type} (same : N -> N -> bool).

(** fs_tree.rs:388-398, as stored: a value of another kind is [Other]. *)
Inductive cell := Single (x : N * V) | Bucket (xs : list (N * V)) | Other.
Definition dataset := Z -> option cell.

Definition ds_insert (d : dataset) (k : Z) (c : cell) : option cell * dataset :=
  (d k, fun k' => if k' =? k then Some c else d k').
Definition ds_remove (d : dataset) (k : Z) : option cell * dataset :=
  (d k, fun k' => if k' =? k then None else d k').

Inductive res (A : Type) := Ok (a : A) | NotFound | Panic.
Arguments Ok {A} a. Arguments NotFound {A}. Arguments Panic {A}.

Definition is_item (n : N) (x : N * V) : bool := same (fst x) n.

(** fs.rs:85-127 *)
Definition ht_get (d : dataset) (k : Z) (n : N) : res (N * V) :=
  match d k with
  | Some (Single old) => if is_item n old then Ok old else NotFound
  | Some (Bucket old) =>
    if (length old <=? 1)%nat then Panic (* assert!(old.len() > 1) *)
    else match find (is_item n) old with Some v => Ok v | None => NotFound end
  | None => NotFound
  | Some Other => Panic
  end.

(** [old.iter().position(..)] and [mem::replace(&mut old[i], new)] in one pass *)
Fixpoint replace_first (n : N) (new : N * V) (l : list (N * V)) : option ((N * V) * list (N * V)) :=
  match l with
  | [] => None
  | x :: l' =>
    if is_item n x then Some (x, new :: l')
    else match replace_first n new l' with
         | Some (o, l'') => Some (o, x :: l'')
         | None => None
         end
  end.

(** fs.rs:130-194 *)
Definition ht_insert (d : dataset) (k : Z) (value : N * V) : res (option (N * V)) * dataset :=
  let n := fst value in
  let '(r, d1) := ds_insert d k (Single value) in
  match r with
  | Some (Single old) =>
    if is_item n old then (Ok (Some old), d1)
    else
      match d1 k with
      | Some (Single new) => (Ok None, snd (ds_insert d1 k (Bucket [old; new])))
      | _ => (Panic, d1)
      end
  | Some (Bucket old) =>
    match d1 k with
    | Some (Single new) =>
      match replace_first n new old with
      | Some (o, old') => (Ok (Some o), snd (ds_insert d1 k (Bucket old')))
      | None => (Ok None, snd (ds_insert d1 k (Bucket (old ++ [new]))))
      end
    | _ => (Panic, d1)
    end
  | Some Other => (Panic, d1)
  | None => (Ok None, d1)
  end.

(** Vec::swap_remove at the first matching position (fs.rs:221-225) *)
Fixpoint split_first (n : N) (l : list (N * V)) : option (list (N * V) * (N * V) * list (N * V)) :=
  match l with
  | [] => None
  | x :: l' =>
    if is_item n x then Some ([], x, l')
    else match split_first n l' with
         | Some (a, y, b) => Some (x :: a, y, b)
         | None => None
         end
  end.
Definition swap_remove (n : N) (l : list (N * V)) : option ((N * V) * list (N * V)) :=
  match split_first n l with
  | None => None
  | Some (a, y, b) =>
    match rev b with
    | [] => Some (y, a)
    | z :: rb => Some (y, a ++ z :: rev rb)
    end
  end.

(** fs.rs:199-260 *)
Definition ht_remove (d : dataset) (k : Z) (n : N) : res (N * V) * dataset :=
  let '(r, d1) := ds_remove d k in
  match r with
  | Some (Single old) =>
    if is_item n old then (Ok old, d1)
    else (NotFound, snd (ds_insert d1 k (Single old)))
  | Some (Bucket old) =>
    match swap_remove n old with
    | Some (r, old') =>
      match old' with
      | [x] => (Ok r, snd (ds_insert d1 k (Single x)))
      | _ => (Ok r, snd (ds_insert d1 k (Bucket old')))
      end
    | None => (NotFound, snd (ds_insert d1 k (Bucket old)))
    end
  | None => (NotFound, d1)
  | Some Other => (Panic, d1)
  end.

End HTable.
Arguments Ok {A} a. Arguments NotFound {A}. Arguments Panic {A}.
