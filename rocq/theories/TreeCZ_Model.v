(** * Cleaning a zone: moving the nodes of a B-tree out of it

    tree/tree/mod.rs 2325-2577.  Which addresses lie in the zone is given by [bad], a test of the block address.  The parts of a cleaning (each call of
    [get_dirty_nodes] and each of [rewrite_node]) are atomic; in the code they lock the tree from the root downwards, hand over hand. *)
From Verif Require Import Common ZMap FSM_Model Tree_Model.

Section CleanZone.
Context {V : Type}.
Notation elem := (@elem V).
Notation node := (@node V).
Notation tree := (@tree V).
Context (bad : addr -> bool).

(** tree/tree/mod.rs 2435-2439: the test of a child *)
Definition in_zone (e : elem) : bool := match e_ptr e with Some a => bad a | None => false end.
(** tree/tree/mod.rs 55-86 [ranges_overlap], of two half-open ranges; both orders of the arguments are used *)
Definition overlap (txs txe : Z) (e : elem) : bool := ranges_overlap (Inc (e_ts e)) (Exc (e_te e)) txs txe.
Definition overlap' (txs txe : Z) (e : elem) : bool := ranges_overlap (Inc txs) (Exc txe) (e_ts e) (e_te e).

(** tree/tree/mod.rs 2454-2458: the first index at or after [i] whose range overlaps with the transactions *)
Fixpoint find_overlap (txs txe : Z) (cs : list elem) (i : nat) : option nat :=
  match cs with
  | [] => None
  | e :: r => if overlap txs txe e then Some i else find_overlap txs txe r (S i)
  end.

(** tree/tree/mod.rs 2425-2469 [get_dirty_nodes_r].  [h] is the height of [n]; [next] is [next_key].  [None] is a panic: of the assertion, or of [as_int] on
    a leaf. *)
Fixpoint get_dirty_r (txs txe : Z) (echelon : nat) (key : Z) (h : nat) (n : node) (next : option Z) : option (list Z * option Z) :=
  match n with
  | Leaf _ => None
  | Int cs =>
      if (h =? S echelon)%nat then
        if forallb (overlap' txs txe) (filter in_zone cs) then Some (map e_key (filter in_zone cs), next) else None
      else
        let idx0 := position cs key in
        match find_overlap txs txe (skipn idx0 cs) idx0 with
        | Some i =>
            let* c := nth_error cs i in
            let next' := match nth_error cs (S i) with Some c' => Some (e_key c') | None => next end in
            match h with
            | S h' => get_dirty_r txs txe echelon key h' (e_node c) next'
            | O => None
            end
        | None => Some ([], next)
        end
  end.
(** tree/tree/mod.rs 2391-2419 [get_dirty_nodes].  The code's height is [S (t_h t)]. *)
Definition get_dirty (txs txe : Z) (echelon : nat) (key : Z) (t : tree) : option (list Z * option Z) :=
  if (t_h t =? echelon)%nat then Some (if in_zone (t_root t) then [e_key (t_root t)] else [], None)
  else get_dirty_r txs txe echelon key (t_h t) (e_node (t_root t)) None.
(** tree/tree/mod.rs 284-372 [CleanZonePass1], collected.  The loop ends when there is no next key; [fuel] bounds it. *)
Fixpoint pass1 (fuel : nat) (txs txe : Z) (echelon : nat) (key : Z) (t : tree) : option (list Z) :=
  match fuel with
  | O => None
  | S f =>
      let* (l, next) := get_dirty txs txe echelon key t in
      match next with
      | None => Some l
      | Some k => let* r := pass1 f txs txe echelon k t in Some (l ++ r)
      end
  end.

(** tree/tree/mod.rs 2510-2576 [rewrite_node_r].  [h] is the height of [n].  Result: the node, the next address, the addresses given back.  The debug assertion
    on keys is not modelled. *)
Fixpoint rewrite_r (txg nx : Z) (echelon : nat) (key : Z) (h : nat) (n : node) : option (node * Z * list addr) :=
  match n with
  | Leaf _ => None
  | Int cs =>
      let i := position cs key in
      match h with
      | O => None
      | S h' =>
          if (h' =? echelon)%nat then
            let* c := nth_error cs i in
            match c with
            | Elem k s te None m n' => Some (n, nx, [])
            | Elem k s te (Some a) m n' =>
                let start := if (h =? 1)%nat then txg else s in
                Some (Int (put_child cs i (Elem k start (txg + 1) (Some (Addr nx txg)) m n')), nx + 1, [a])
            end
          else
            let* (cs1, c, p) := xlock_at txg cs i in
            let* (n', nx', p') := rewrite_r txg nx echelon key h' (e_node c) in
            Some (Int (put_child cs1 i (set_node c n')), nx', p ++ p')
      end
  end.
(** tree/tree/mod.rs 2472-2507 [rewrite_node].  The root's range of transactions is left as it is. *)
Definition rewrite (txg nx : Z) (echelon : nat) (key : Z) (t : tree) : option (tree * Z * list addr) :=
  if (t_h t =? echelon)%nat then
    match t_root t with
    | Elem k s te None m n => Some (t, nx, [])
    | Elem k s te (Some a) m n => Some (Tree (Elem k s te (Some (Addr nx txg)) m n) (t_h t), nx + 1, [a])
    end
  else
    let (r, p) := xlock_root txg (t_root t) in
    let* (n', nx', p') := rewrite_r txg nx echelon key (t_h t) (e_node r) in
    Some (Tree (set_node r n') (t_h t), nx', p ++ p').
(** tree/tree/mod.rs 2375-2383: the nodes found, in the order in which they happen to be rewritten *)
Fixpoint rewrite_all (txg nx : Z) (echelon : nat) (keys : list Z) (t : tree) : option (tree * Z * list addr) :=
  match keys with
  | [] => Some (t, nx, [])
  | k :: r =>
      let* (t1, nx1, p) := rewrite txg nx echelon k t in
      let* (t2, nx2, p') := rewrite_all txg nx1 echelon r t1 in
      Some (t2, nx2, p ++ p')
  end.

(** tree/tree/mod.rs 2341-2386 [clean_zone], for the echelons [e], [e + 1], ... [n] in number.  The nodes of an echelon are rewritten concurrently: [order] says in
    which order. *)
Fixpoint clean_from (fuel : nat) (order : nat -> list Z -> list Z) (txs txe txg nx : Z) (e n : nat) (t : tree) : option (tree * Z * list addr) :=
  match n with
  | O => Some (t, nx, [])
  | S n' =>
      let* keys := pass1 fuel txs txe e 0 t in
      let* (t1, nx1, p) := rewrite_all txg nx e (order e keys) t in
      let* (t2, nx2, p') := clean_from fuel order txs txe txg nx1 (S e) n' t1 in
      Some (t2, nx2, p ++ p')
  end.
Definition clean_zone (fuel : nat) (order : nat -> list Z -> list Z) (txs txe txg nx : Z) (t : tree) : option (tree * Z * list addr) :=
  clean_from fuel order txs txe txg nx 0 (S (t_h t)) t.
End CleanZone.
