(** The consistency check: tree/tree/mod.rs 550-648 and tree/node.rs 1180-1206 on the trees of [Tree_Model],
    idml/idml.rs 78-188, database/database.rs 327-371.

    Reading nodes succeeds.  [None] is a panic.  The height that the recursion is given is only printed (and
    asserted to be positive in debug builds), so it is left out. *)
From Verif Require Import Common FSM_Model ZMap Tree_Model.

Section Check.
Context {V : Type}.
Implicit Types (e : elem V) (cs : list (elem V)) (n : node V) (t : tree V).

(** tree/node.rs 1180-1206 [NodeData::check]; [NodeData::key] (1246-1251) of an empty node panics, and is not
    looked at for the root *)
Definition check_node (lim : limits) (key : Z) (is_root : bool) n : option bool :=
  let l := n_len n in
  let len_ok := if negb is_root && (l <? n_min lim n)%nat then false
                else if (n_max lim n <? l)%nat then false else true in
  let* key_ok := if is_root then Some true
                 else let* k := n_key n in Some (if k <? key then false else true) in
  Some (len_ok && key_ok).

Fixpoint max_te cs : option Z :=
  match cs with
  | [] => None
  | e :: r => Some (match max_te r with None => e_te e | Some x => Z.max (e_te e) x end)
  end.

Definition mapm {A B} (f : A -> option B) : list A -> option (list B) :=
  fix go l := match l with [] => Some [] | x :: r => let* y := f x in let* ys := go r in Some (y :: ys) end.

(** 630-646: [all] ends at the first child that is out of order, [last_key] having been set to its end *)
Fixpoint sorted_from (last : Z) (r : list (bool * (Z * Z))) : bool * Z :=
  match r with
  | [] => (true, last)
  | (_, (s, e)) :: r => if s <? last then (false, e) else sorted_from e r
  end.

(** 596-629: one child.  [rec] is [check_r] *)
Definition check_elem (lim : limits) (rec : node V -> option (bool * (Z * Z) * (Z * Z))) e : option (bool * (Z * Z)) :=
  match e with
  | Elem key ts te _ _ c =>
    let* data_ok := check_node lim key false c in
    let* (passed, keys, r) :=
      match c with
      | Leaf l => let* first := n_key c in let* last := leaf_last l in Some (data_ok, (first, last), (ts, te))
      | Int _ => let* (passed, keys, txgs) := rec c in Some (passed && data_ok, (key, snd keys), txgs)
      end in
    Some (if (fst r <? ts) || (te <? snd r) then (false, keys) else (passed, keys))
  end.

(** 577-648 [check_r]: whether it passes, the range of keys and that of transactions.  K::min_value() is 0. *)
Fixpoint check_r (lim : limits) n : option (bool * (Z * Z) * (Z * Z)) :=
  match n with
  | Leaf _ => None
  | Int cs =>
    let* start := min_ts cs in
    let* end_ := max_te cs in
    let* r := mapm (check_elem lim (check_r lim)) cs in
    let* x := nth_error r 0 in
    let (sorted, last) := sorted_from 0 r in
    Some (forallb fst r && sorted, (fst (snd x), last), (start, end_))
  end.

(** 550-575 [Tree::check]; the code's height is one more than [t_h] *)
Definition check (lim : limits) t : option bool :=
  let root := t_root t in
  let* root_ok := check_node lim (e_key root) true (e_node root) in
  match t_h t with
  | O => Some root_ok
  | S _ =>
    let* (passed, _, txgs) := check_r lim (e_node root) in
    Some (if (fst txgs <? e_ts root) || (e_te root <? snd txgs) then false else root_ok && passed)
  end.
End Check.

(** ** The record tables

    idml/idml.rs 86-170.  An address is a number; an entry of the RIDT has an address, the blocks it takes and its
    references.  [nodes] are the sizes of the nodes of the two tables on disk. *)
Record rentry := Rentry { re_pba : Z; re_asize : Z; re_refs : Z }.
Definition check_ridt (alloct : list (Z * Z)) (ridt : list (Z * rentry)) (ridt_nodes alloct_nodes : list Z) (used : Z) : bool :=
  let alloct_ok := fold_left (fun passes x =>
    passes && match zm_get (snd x) ridt with
              | Some en => if re_pba en =? fst x then true else false
              | None => false
              end) alloct true in
  let ridt_ok := fold_left (fun passes x =>
    passes && match zm_get (re_pba (snd x)) alloct with Some _ => true | None => false end) ridt true in
  let iblocks := fold_left (fun size x => size + re_asize (snd x)) ridt 0 in
  let rblocks := fold_left Z.add ridt_nodes 0 in
  let ablocks := fold_left Z.add alloct_nodes 0 in
  alloct_ok && ridt_ok && (used =? iblocks + rblocks + ablocks).

(** idml/idml.rs 180-186 and database/database.rs 333-371: the answers of the two tables, of [check_ridt] and of
    the file systems' trees *)
Definition check_db (alloct_ok ridt_ok tables_ok : option bool) (trees : list (option bool)) : option bool :=
  let* a := alloct_ok in let* r := ridt_ok in
  let* c := tables_ok in
  let* f := fold_left (fun acc o => let* passed := acc in let* r := o in Some (r && passed)) trees (Some true) in
  Some (a && r && c && f).
