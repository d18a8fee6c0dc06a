(** * The copy-on-write B-tree

    Model of [bfffs-core/src/tree/node.rs] and [bfffs-core/src/tree/tree/mod.rs].

    Simplifications that hold for the whole file:
    - Keys are integers ordered by [<=]; [K::min_value()] is [0].  Values are any type [V].
      [V::flush]/[dpop]/[ddrop] (values that own disk blobs of their own) are not modelled.
    - A node that is on disk is kept inline, behind the address it was written to: the data management
      layer is assumed to return for an address exactly the node that was written to it.  What the
      tree asks of that layer is recorded: every operation returns the list of addresses it popped or
      deleted, and flushing takes new addresses from a counter.
    - Locking is not modelled: each operation runs alone.  Writeback credit and I/O errors are not
      modelled here.
    - The tree height is a [nat], not a [u8], and is used as the recursion bound.  Leaves have height
      [0]; the field [t_h] is the code's [height - 1].
    - A panic is [None]. *)
From Verif Require Import Common ZMap.

Section TreeModel.
Context {V : Type}.

(** An address handed out by the data management layer.  [a_txg] is the transaction in which it was
    written; the tree never looks at it, it is recorded for the specification.  [a_id] is the address
    itself (for direct trees a physical block address). *)
Record addr := Addr { a_id : Z; a_txg : Z }.

(** tree/node.rs 1137-1142 [NodeData]; 357-371 [LeafData] (items only), 1083-1086 [IntData];
    1006-1020 [IntElem] with [txgs = e_ts .. e_te]; [TreePtr] (tree/node.rs) is [e_ptr]: [None] is
    [TreePtr::Mem], [Some a] is [TreePtr::Addr(a)].  [e_mark] is membership of the node's memory address in
    the [HashSet] of [range_delete]; it is [false] outside of [range_delete]. *)
Inductive node :=
| Leaf (items : list (Z * V))
| Int (children : list elem)
with elem :=
| Elem (key ts te : Z) (ptr : option addr) (mark : bool) (n : node).

Definition e_key (e : elem) := let 'Elem k _ _ _ _ _ := e in k.
Definition e_ts (e : elem) := let 'Elem _ s _ _ _ _ := e in s.
Definition e_te (e : elem) := let 'Elem _ _ t _ _ _ := e in t.
Definition e_ptr (e : elem) := let 'Elem _ _ _ p _ _ := e in p.
Definition e_mark (e : elem) := let 'Elem _ _ _ _ m _ := e in m.
Definition e_node (e : elem) := let 'Elem _ _ _ _ _ n := e in n.

(** tree/node.rs 729-751 [Limits] *)
Record limits := Limits { min_int : nat; max_int : nat; min_leaf : nat; max_leaf : nat }.

(** tree/tree/mod.rs 358-365 [TreeRoot] *)
Record tree := Tree { t_root : elem; t_h : nat }.

(** tree/tree/mod.rs 657-690 [mk_fanout] within [Tree::create].  [raw] is [compression_ratio * 4096], whose
    floating point computation is not modelled; [u16] truncation is. *)
Definition mk_fanout (seq : bool) (elem_size raw : Z) : Z * Z :=
  let spread := 4 in
  let split_size := raw - 12 in
  let max_fanout := (if seq then split_size * spread / (spread - 1) / elem_size
                     else 2 * (split_size / elem_size)) mod 65536 in
  ((max_fanout + spread - 1) / spread, max_fanout).

(** tree/node.rs 1256-1261 [NodeData::len] *)
Definition n_len (n : node) : nat := match n with Leaf l => length l | Int cs => length cs end.
(** tree/node.rs 1264-1280 [min_fanout], [max_fanout] *)
Definition n_min (lim : limits) (n : node) : nat :=
  match n with Leaf _ => min_leaf lim | Int _ => min_int lim end.
Definition n_max (lim : limits) (n : node) : nat :=
  match n with Leaf _ => max_leaf lim | Int _ => max_int lim end.
(** tree/node.rs 1283-1286 [underflow]; 1214-1221 [in_danger], [in_extra_danger]; 1236-1238 [can_merge] *)
Definition underflow lim n : bool := (n_len n <? n_min lim n)%nat.
Definition in_danger lim n : bool := (n_len n <=? n_min lim n)%nat.
Definition in_extra_danger lim n : bool := (n_len n <=? n_min lim n + 1)%nat.
Definition can_merge lim n rhs : bool := (n_len n + n_len rhs <=? n_max lim n)%nat.
(** tree/node.rs 1242-1247 [NodeData::key] *)
Definition n_key (n : node) : option Z :=
  match n with
  | Leaf ((k, _) :: _) => Some k
  | Leaf [] => None
  | Int (e :: _) => Some (e_key e)
  | Int [] => None
  end.

(** tree/node.rs 1294-1303 [should_split].  The [debug_assert] is not modelled. *)
Definition should_split lim (k : Z) (n : node) : bool :=
  match n with
  | Leaf l => if zm_mem k l then false else (max_leaf lim <=? length l)%nat
  | Int cs => (max_int lim <=? length cs)%nat
  end.

(** tree/node.rs 1132-1137 [IntData::start_txg]; [None] models the [unwrap] of an empty minimum *)
Fixpoint min_ts (cs : list elem) : option Z :=
  match cs with
  | [] => None
  | e :: r => match min_ts r with None => Some (e_ts e) | Some m => Some (Z.min (e_ts e) m) end
  end.
(** tree/node.rs 1333-1342 [NodeData::start_txg] *)
Definition start_txg (n : node) (txg : Z) : option Z :=
  match n with Leaf _ => Some txg | Int cs => min_ts cs end.

(** tree/node.rs 1305-1329 [NodeData::split], 545-565 [LeafData::split], 1116-1130 [IntData::split].
    Result: the left node, the transaction range recorded for it, and the new element. *)
Definition split lim (seq : bool) (txg : Z) (n : node) : option (node * (Z * Z) * elem) :=
  let len := n_len n in
  if seq && (len <? n_min lim n)%nat then None else
  let left := if seq then (len - n_min lim n)%nat else Nat.div2 (len + 1) in
  match n with
  | Leaf l =>
      match skipn left l with
      | [] => None
      | (k, v) :: r => Some (Leaf (firstn left l), (txg, txg + 1),
                             Elem k txg (txg + 1) None false (Leaf ((k, v) :: r)))
      end
  | Int cs =>
      match min_ts (firstn left cs), skipn left cs with
      | Some s, e :: r =>
          match min_ts (e :: r) with
          | Some s' => Some (Int (firstn left cs), (s, txg + 1),
                             Elem (e_key e) s' (txg + 1) None false (Int (e :: r)))
          | None => None
          end
      | _, _ => None
      end
  end.

(** tree/node.rs 1344-1358 [merge].  [BTreeMap::append] of a map with higher keys is [++]. *)
Definition n_merge (n other : node) : option node :=
  match n, other with
  | Leaf a, Leaf b => Some (Leaf (a ++ b))
  | Int a, Int b => Some (Int (a ++ b))
  | _, _ => None
  end.

(** tree/node.rs 1368-1395 [take_high_keys] *)
Definition take_high (n other : node) : option (node * node) :=
  if (n_len other <? n_len n)%nat then None else
  let share := Nat.max 1 (Nat.div2 (n_len other - n_len n)) in
  if (n_len other <? share)%nat then None else
  let cut := (n_len other - share)%nat in
  match n, other with
  | Leaf a, Leaf b => match skipn cut b with [] => None | _ => Some (Leaf (skipn cut b ++ a), Leaf (firstn cut b)) end
  | Int a, Int b => Some (Int (skipn cut b ++ a), Int (firstn cut b))
  | _, _ => None
  end.

(** tree/node.rs 1397-1426 [take_low_keys] *)
Definition take_low (n other : node) : option (node * node) :=
  if (n_len other <? n_len n)%nat then None else
  let share := Nat.max 1 (Nat.div2 (n_len other - n_len n)) in
  match n, other with
  | Leaf a, Leaf b => match skipn share b with [] => None | _ => Some (Leaf (a ++ firstn share b), Leaf (skipn share b)) end
  | Int a, Int b => if (length b <? share)%nat then None else Some (Int (a ++ firstn share b), Int (skipn share b))
  | _, _ => None
  end.

(** tree/node.rs 1106-1112 [IntData::position]: the binary search of a sorted vector *)
Definition position (cs : list elem) (k : Z) : nat :=
  (length (filter (fun e => Z.leb (e_key e) k) cs) - 1)%nat.

(** tree/node.rs 814-861 [TreeWriteGuard::xlock], for the element of the child.  Result: the element with
    the node in memory, and the addresses popped. *)
Definition xlock (txg : Z) (e : elem) : option (elem * list addr) :=
  let 'Elem k s _ p m n := e in
  match p with
  | None => Some (Elem k s (txg + 1) None m n, [])
  | Some a => match start_txg n txg with
              | Some s' => Some (Elem k s' (txg + 1) None m n, [a])
              | None => None
              end
  end.

(** tree/tree/mod.rs 2255-2294 [xlock_root]: as [xlock], but the start of the range is kept *)
Definition xlock_root (txg : Z) (e : elem) : elem * list addr :=
  let 'Elem k s _ p m n := e in
  (Elem k s (txg + 1) None m n, match p with None => [] | Some a => [a] end).

(** ** Lookup *)

(** tree/tree/mod.rs 1106-1127 [get_r] *)
Fixpoint get_r (h : nat) (n : node) (k : Z) : option (option V) :=
  match n with
  | Leaf l => Some (zm_get k l)
  | Int cs =>
      match h, nth_error cs (position cs k) with
      | S h', Some e => get_r h' (e_node e) k
      | _, _ => None
      end
  end.
(** tree/tree/mod.rs 1090-1103 [get] *)
Definition get (t : tree) (k : Z) : option (option V) := get_r (t_h t) (e_node (t_root t)) k.

(** tree/node.rs 479-481 [LeafData::last_key] *)
Definition leaf_last (l : list (Z * V)) : option Z := option_map fst (nth_error l (length l - 1)).

(** tree/tree/mod.rs 1391-1410 [last_key_r]; 1376-1387 [last_key] *)
Fixpoint last_key_r (h : nat) (n : node) : option (option Z) :=
  match n with
  | Leaf l => Some (leaf_last l)
  | Int cs =>
      match h, nth_error cs (length cs - 1) with
      | S h', Some e => last_key_r h' (e_node e)
      | _, _ => None
      end
  end.
Definition last_key (t : tree) : option (option Z) := last_key_r (t_h t) (e_node (t_root t)).

(** [std::ops::Bound] *)
Inductive bound := Inc (k : Z) | Exc (k : Z) | Unb.
Definition above (b : bound) (k : Z) : bool :=
  match b with Inc s => s <=? k | Exc s => s <? k | Unb => true end.
Definition below (b : bound) (k : Z) : bool :=
  match b with Inc e => k <=? e | Exc e => k <? e | Unb => true end.
(** [std::collections::BTreeMap::range] panics on these bounds *)
Definition range_panics (s e : bound) : bool :=
  match s, e with
  | Exc a, Exc b => b <=? a
  | Inc a, Exc b | Exc a, Inc b | Inc a, Inc b => b <? a
  | _, _ => false
  end.

(** tree/node.rs 490-505 [LeafData::range] *)
Definition leaf_range (l : list (Z * V)) (s e : bound) : option (list (Z * V) * bool) :=
  match leaf_last l with
  | None => Some ([], false)
  | Some last =>
      let more := match e with Inc i | Exc i => negb (i <=? last) | Unb => true end in
      if range_panics s e then None
      else Some (filter (fun kv => above s (fst kv) && below e (fst kv)) l, more)
  end.

(** tree/tree/mod.rs 1157-1246 [get_range_r].  [next] is [next_guard].  [fuel] bounds the recursion. *)
Fixpoint get_range_r (fuel : nat) (n : node) (next : option node) (s e : bound)
  : option (list (Z * V) * option bound) :=
  match fuel with
  | O => None
  | S fuel' =>
    match n with
    | Leaf l =>
        match leaf_range l s e with
        | None => None
        | Some (v, more) =>
            match v, more, next with
            | [], true, Some ng => get_range_r fuel' ng None s e
            | [], _, _ => Some (v, None)
            | _, true, Some ng => match n_key ng with Some k => Some (v, Some (Inc k)) | None => None end
            | _, true, None => match leaf_last l with Some k => Some (v, Some (Exc k)) | None => None end
            | _, false, _ => Some (v, None)
            end
        end
    | Int cs =>
        let i := match s with Inc k | Exc k => position cs k | Unb => O end in
        match nth_error cs i with
        | None => None
        | Some c =>
            match nth_error cs (S i) with
            | Some c' =>
                if below e (e_key c') then
                  match n_key (e_node c') with
                  | None => match e with Unb => get_range_r fuel' (e_node c) (Some (e_node c')) s e | _ => None end
                  | Some k => get_range_r fuel' (e_node c) (if below e k then Some (e_node c') else None) s e
                  end
                else get_range_r fuel' (e_node c) None s e
            | None => get_range_r fuel' (e_node c) next s e
            end
        end
    end
  end.
(** tree/tree/mod.rs 1135-1151 [get_range] *)
Definition get_range (t : tree) (s e : bound) : option (list (Z * V) * option bound) :=
  get_range_r (2 * t_h t + 2) (e_node (t_root t)) None s e.

(** tree/tree/mod.rs 172-216 [RangeQuery::poll_next], driven to the end of the stream: the stream ends at the
    first [get_range] that returns no item.  [fuel] bounds the number of calls of [get_range]. *)
Fixpoint range_query (fuel : nat) (t : tree) (cursor : option bound) (e : bound) : option (list (Z * V)) :=
  match cursor with
  | None => Some []
  | Some s =>
      match fuel with
      | O => None
      | S fuel' =>
          match get_range t s e with
          | None => None
          | Some ([], _) => Some []
          | Some (v, c) => option_map (app v) (range_query fuel' t c e)
          end
      end
  end.

(** ** Insertion *)

(** tree/tree/mod.rs 1335-1350 [insert_int_no_split] and 1302-1332 [insert_int], and 1353-1371
    [insert_leaf_no_split], on a node with children [cs].  After a split the code calls
    [insert_int_no_split] again on the same node; [retry] bounds how often.  [rec] is the recursive call. *)
Fixpoint ins_try (lim : limits) (seq : bool) (txg k : Z) (v : V)
  (rec : list elem -> option (list elem * option V * list addr)) (retry : nat) (cs : list elem)
  : option (list elem * option V * list addr) :=
  let i := position cs k in
  match nth_error cs i with
  | None => None
  | Some e0 =>
    let 'Elem k0 s0 t0 p0 m0 n0 := e0 in
    let e1 := if k <? k0 then Elem k s0 t0 p0 m0 n0 else e0 in
    match xlock txg e1 with
    | None => None
    | Some (Elem k2 s2 t2 p2 m2 n2, popped) =>
      if should_split lim k n2 then
        match retry, split lim seq txg n2 with
        | S retry', Some (l, (os, ot), new) =>
            match ins_try lim seq txg k v rec retry'
                    (firstn i cs ++ Elem k2 os ot p2 m2 l :: new :: skipn (S i) cs) with
            | Some (cs', old, popped') => Some (cs', old, popped ++ popped')
            | None => None
            end
        | _, _ => None
        end
      else
        match n2 with
        | Leaf l =>
            Some (firstn i cs ++ Elem k2 txg (txg + 1) p2 m2 (Leaf (zm_set k v l)) :: skipn (S i) cs,
                  zm_get k l, popped)
        | Int cs2 =>
            match rec cs2 with
            | Some (cs2', old, popped') =>
                Some (firstn i cs ++ Elem k2 s2 t2 p2 m2 (Int cs2') :: skipn (S i) cs, old, popped ++ popped')
            | None => None
            end
        end
    end
  end.
Fixpoint insert_int (lim : limits) (seq : bool) (txg k : Z) (v : V) (h : nat) (cs : list elem)
  : option (list elem * option V * list addr) :=
  match h with
  | O => None
  | S h' => ins_try lim seq txg k v (insert_int lim seq txg k v h') 2 cs
  end.

(** tree/tree/mod.rs 1262-1296 [insert] *)
Definition insert lim seq (txg k : Z) (v : V) (t : tree) : option (tree * option V * list addr) :=
  let '(Elem rk rs rt rp rm rn, popped) := xlock_root txg (t_root t) in
  let split_root :=
    if should_split lim k rn then
      match split lim seq txg rn with
      | Some (l, (os, ot), new) => Some (Int [Elem 0 os ot None false l; new], S (t_h t))
      | None => None
      end
    else Some (rn, t_h t) in
  match split_root with
  | None => None
  | Some (Leaf l, h) =>
      Some (Tree (Elem rk txg (txg + 1) rp rm (Leaf (zm_set k v l))) h, zm_get k l, popped)
  | Some (Int cs, h) =>
      match insert_int lim seq txg k v h cs with
      | Some (cs', old, popped') => Some (Tree (Elem rk rs rt rp rm (Int cs')) h, old, popped ++ popped')
      | None => None
      end
  end.

(** ** Removal *)

Definition set_node (e : elem) (n : node) : elem := let 'Elem k s t p m _ := e in Elem k s t p m n.
Definition set_ts (e : elem) (s : Z) : elem := let 'Elem k _ t p m n := e in Elem k s t p m n.
Definition set_key (e : elem) (k : Z) : elem := let 'Elem _ s t p m n := e in Elem k s t p m n.

(** tree/tree/mod.rs 830-893 [fix_int]: [i] is the child's index, the child is already locked.  Result: the
    children, and how many of them were removed before and after the child. *)
Definition fix_int lim (txg : Z) (cs : list elem) (i : nat)
  : option (list elem * nat * nat * list addr) :=
  match nth_error cs i with
  | None => None
  | Some c =>
    if (S i <? length cs)%nat then
      match nth_error cs (S i) with
      | None => None
      | Some s0 =>
        match xlock txg s0 with
        | None => None
        | Some (s, popped) =>
          if can_merge lim (e_node c) (e_node s) then
            match n_merge (e_node c) (e_node s) with
            | None => None
            | Some n =>
              match start_txg n txg with
              | None => None
              | Some st => Some (firstn i cs ++ set_ts (set_node c n) st :: skipn (S (S i)) cs, 0%nat, 1%nat, popped)
              end
            end
          else
            match take_low (e_node c) (e_node s) with
            | None => None
            | Some (cn, sn) =>
              match n_key sn, start_txg sn txg, start_txg cn txg with
              | Some sk, Some sst, Some cst =>
                  Some (firstn i cs ++ set_ts (set_node c cn) cst
                          :: set_key (set_ts (set_node s sn) sst) sk :: skipn (S (S i)) cs, 0%nat, 0%nat, popped)
              | _, _, _ => None
              end
            end
        end
      end
    else
      match i with
      | O => None
      | S j =>
        match nth_error cs j with
        | None => None
        | Some s0 =>
          match xlock txg s0 with
          | None => None
          | Some (s, popped) =>
            if can_merge lim (e_node s) (e_node c) then
              match n_merge (e_node s) (e_node c) with
              | None => None
              | Some n =>
                match start_txg n txg with
                | None => None
                | Some st => Some (firstn j cs ++ set_ts (set_node s n) st :: skipn (S i) cs, 1%nat, 0%nat, popped)
                end
              end
            else
              match take_high (e_node c) (e_node s) with
              | None => None
              | Some (cn, sn) =>
                match n_key cn, start_txg sn txg, start_txg cn txg with
                | Some ck, Some sst, Some cst =>
                    Some (firstn j cs ++ set_ts (set_node s sn) sst
                            :: set_key (set_ts (set_node c cn) cst) ck :: skipn (S i) cs, 0%nat, 0%nat, popped)
                | _, _, _ => None
                end
              end
          end
        end
      end
  end.

(** replacement of the [i]th child *)
Definition put_child (cs : list elem) (i : nat) (e : elem) : list elem := firstn i cs ++ e :: skipn (S i) cs.

(** tree/node.rs 814-861 [xlock], on the children of a node *)
Definition xlock_at (txg : Z) (cs : list elem) (i : nat) : option (list elem * elem * list addr) :=
  match nth_error cs i with
  | None => None
  | Some e => match xlock txg e with
              | None => None
              | Some (e', popped) => Some (put_child cs i e', e', popped)
              end
  end.

(** tree/tree/mod.rs 2135-2158 [remove_no_fix] and 2108-2132 [remove_int] *)
Fixpoint remove_no_fix (lim : limits) (txg k : Z) (h : nat) (n : node)
  : option (node * option V * list addr) :=
  match n with
  | Leaf l => Some (Leaf (zm_del k l), zm_get k l, [])
  | Int cs =>
    match h with
    | O => None
    | S h' =>
      let i := position cs k in
      match xlock_at txg cs i with
      | None => None
      | Some (cs1, c, popped) =>
        if in_danger lim (e_node c) then
          match fix_int lim txg cs1 i with
          | None => None
          | Some (cs2, _, _, popped2) =>
            let i2 := position cs2 k in
            match xlock_at txg cs2 i2 with
            | None => None
            | Some (cs3, c3, popped3) =>
              match remove_no_fix lim txg k h' (e_node c3) with
              | None => None
              | Some (n', old, popped4) =>
                  Some (Int (put_child cs3 i2 (set_node c3 n')), old, popped ++ popped2 ++ popped3 ++ popped4)
              end
            end
          end
        else
          match remove_no_fix lim txg k h' (e_node c) with
          | None => None
          | Some (n', old, popped4) => Some (Int (put_child cs1 i (set_node c n')), old, popped ++ popped4)
          end
      end
    end
  end.

(** tree/node.rs 1061-1080 [IntElem::default] *)
Definition default_elem : elem := Elem 0 0 0 None false (Leaf []).

(** tree/tree/mod.rs 2203-2250 [xlock_and_merge_root] *)
Definition xlock_and_merge_root (txg : Z) (t : tree) : option (tree * list addr) :=
  let (r, popped) := xlock_root txg (t_root t) in
  match e_node r with
  | Int [c] =>
      let (r', popped') := xlock_root txg (set_key c 0) in
      match t_h t with
      | S h' => Some (Tree r' h', popped ++ popped')
      | O => None
      end
  | Int [] =>
      let (r', popped') := xlock_root txg default_elem in Some (Tree r' 0, popped ++ popped')
  | _ => Some (Tree r (t_h t), popped)
  end.

(** tree/tree/mod.rs 2097-2104 [remove] *)
Definition remove lim (txg k : Z) (t : tree) : option (tree * option V * list addr) :=
  match xlock_and_merge_root txg t with
  | None => None
  | Some (t1, popped) =>
      match remove_no_fix lim txg k (t_h t1) (e_node (t_root t1)) with
      | None => None
      | Some (n', old, popped') => Some (Tree (set_node (t_root t1) n') (t_h t1), old, popped ++ popped')
      end
  end.

(** ** Flushing *)

Definition is_dirty (e : elem) : bool := match e_ptr e with None => true | Some _ => false end.
(** tree/node.rs 1089-1096, 1204-1209 [has_dirty_children] *)
Definition has_dirty_children (n : node) : bool :=
  match n with Leaf _ => false | Int cs => existsb is_dirty cs end.

(** tree/tree/mod.rs 982-1024 [flush_leaves]: the leaves are written concurrently, so the order in which
    they get their addresses is not specified by the code; here it is the key order. [nx] is the next
    unused address. *)
Fixpoint flush_leaves (txg : Z) (nx : Z) (cs : list elem) : list elem * Z :=
  match cs with
  | [] => ([], nx)
  | Elem k s t p m n :: r =>
      match p with
      | Some _ => let (r', nx') := flush_leaves txg nx r in (Elem k s t p m n :: r', nx')
      | None => let (r', nx') := flush_leaves txg (nx + 1) r in
                (Elem k txg (txg + 1) (Some (Addr nx txg)) m n :: r', nx')
      end
  end.

(** first dirty child at or after index [i] (tree/tree/mod.rs 1052-1058) *)
Fixpoint skip_clean (cs : list elem) (i : nat) : nat :=
  match cs with
  | [] => i
  | e :: r => if is_dirty e then i else skip_clean r (S i)
  end.

(** tree/tree/mod.rs 1034-1083 [flush_r]: [h] is the height of the node whose children are [cs] *)
Fixpoint flush_r (txg : Z) (h : nat) (lowest : Z) (nx : Z) (cs : list elem)
  : option (list elem * Z * option Z) :=
  match h with
  | O => None
  | S O => let (cs', nx') := flush_leaves txg nx cs in Some (cs', nx', None)
  | S h' =>
      let idx0 := position cs lowest in
      let idx := skip_clean (skipn idx0 cs) idx0 in
      match nth_error cs idx with
      | None => Some (cs, nx, None)
      | Some (Elem k s t p m n) =>
          let next_key := option_map e_key (nth_error cs (S idx)) in
          match n with
          | Leaf _ => None
          | Int cs1 =>
              if existsb is_dirty cs1 then
                match flush_r txg h' lowest nx cs1 with
                | None => None
                | Some (cs1', nx', ck) =>
                    Some (put_child cs idx (Elem k s t p m (Int cs1')), nx',
                          match ck with Some _ => ck | None => next_key end)
                end
              else
                match min_ts cs1 with
                | None => None
                | Some st =>
                    Some (put_child cs idx (Elem k st (txg + 1) (Some (Addr nx txg)) m n), nx + 1, next_key)
                end
          end
      end
  end.

(** tree/tree/mod.rs 925-979 [flush_once]: one iteration of the [try_unfold].  The result says whether the
    stream goes on (with which lowest key), or what [flush_once] returns. *)
Definition flush_iter (txg : Z) (lowest nx : Z) (t : tree) : option (tree * Z * (Z + bool)) :=
  if is_dirty (t_root t) then
    let (r, _) := xlock_root txg (t_root t) in
    let 'Elem k s te p m n := r in
    match n with
    | Int cs =>
        if existsb is_dirty cs then
          match flush_r txg (t_h t) lowest nx cs with
          | None => None
          | Some (cs', nx', Some key) => Some (Tree (Elem k s te p m (Int cs')) (t_h t), nx', inl key)
          | Some (cs', nx', None) => Some (Tree (Elem k s te p m (Int cs')) (t_h t), nx', inr true)
          end
        else
          match min_ts cs with
          | None => None
          | Some st => Some (Tree (Elem k st (txg + 1) (Some (Addr nx txg)) m n) (t_h t), nx + 1, inr false)
          end
    | Leaf _ => Some (Tree (Elem k txg (txg + 1) (Some (Addr nx txg)) m n) (t_h t), nx + 1, inr false)
    end
  else Some (t, nx, inr false).

(** tree/tree/mod.rs 896-901 [flush] with 925-979 [flush_once]: iterate; a new [flush_once] starts again from
    the lowest key.  [fuel] bounds the number of iterations. *)
Fixpoint flush_loop (fuel : nat) (txg : Z) (lowest nx : Z) (t : tree) : option (tree * Z) :=
  match fuel with
  | O => None
  | S fuel' =>
      match flush_iter txg lowest nx t with
      | None => None
      | Some (t', nx', inl k) => flush_loop fuel' txg k nx' t'
      | Some (t', nx', inr true) => flush_loop fuel' txg 0 nx' t'
      | Some (t', nx', inr false) => Some (t', nx')
      end
  end.

(** number of nodes in memory below a node, and number of nodes below a node *)
Fixpoint dirty_count (h : nat) (n : node) : nat :=
  match h, n with
  | S h', Int cs => list_sum (map (fun e => (if is_dirty e then 1 else 0) + dirty_count h' (e_node e))%nat cs)
  | _, _ => O
  end.
Fixpoint keys_below (h : nat) (n : node) : list Z :=
  match h, n with
  | S h', Int cs => flat_map (fun e => e_key e :: keys_below h' (e_node e)) cs
  | _, _ => []
  end.
(** The code loops until it is done; this bound is shown to be enough in [Tree_Flush]: every iteration either
    goes to a greater key or starts again from the lowest key, and the first iteration from the lowest key writes
    at least one node. *)
Definition flush (txg nx : Z) (t : tree) : option (tree * Z) :=
  let n := e_node (t_root t) in
  flush_loop ((dirty_count (t_h t) n + 1) * (length (keys_below (t_h t) n) + 1)) txg 0 nx t.

(** tree/tree/mod.rs 2161-2175 [serialize] and 1439-1445 [open]: what is kept of a flushed tree is its height,
    the root's address and the root's transaction range; [K::min_value()] is used as the key. *)
Definition serialize (t : tree) : option (nat * (addr * node) * (Z * Z)) :=
  let 'Elem _ s te p _ n := t_root t in
  match p with Some a => Some (t_h t, (a, n), (s, te)) | None => None end.
Definition open (d : nat * (addr * node) * (Z * Z)) : tree :=
  let '(h, (a, n), (s, te)) := d in Tree (Elem 0 s te (Some a) false n) h.

(** ** Listing addresses *)

(** tree/tree/mod.rs 55-86 [ranges_overlap], [y = ys .. ye] *)
Definition ranges_overlap (xs xe : bound) (ys ye : Z) : bool :=
  let x_is_empty :=
    match xs, xe with
    | Inc s, Inc e => e <? s
    | Inc s, Exc e => e <=? s
    | Exc s, Inc e => e <=? s
    | Exc s, Exc e => e <=? s
    | _, _ => false
    end in
  let x_precedes_y := match xe with Inc e => e <? ys | Exc e => e <=? ys | Unb => false end in
  let y_precedes_x := match xs with Inc s | Exc s => ye <=? s | Unb => false end in
  if x_is_empty || (ye <=? ys) then false
  else if x_precedes_y || y_precedes_x then false
  else true.

Definition opt_list {A} (o : option A) : list A := match o with Some a => [a] | None => [] end.

(** tree/tree/mod.rs 516-548 [addresses_r] *)
Fixpoint addresses_r (xs xe : bound) (h : nat) (cs : list elem) : list addr :=
  flat_map (fun e => if ranges_overlap xs xe (e_ts e) (e_te e) then opt_list (e_ptr e) else []) cs
  ++ match h with
     | S (S _ as h') =>
         flat_map (fun e => if ranges_overlap xs xe (e_ts e) (e_te e)
                            then match e_node e with Int cs' => addresses_r xs xe h' cs' | Leaf _ => [] end
                            else []) cs
     | _ => []
     end.
(** tree/tree/mod.rs 477-514 [addresses] *)
Definition addresses (xs xe : bound) (t : tree) : list addr :=
  (if ranges_overlap xs xe (e_ts (t_root t)) (e_te (t_root t)) then opt_list (e_ptr (t_root t)) else [])
  ++ match t_h t, e_node (t_root t) with
     | S _, Int cs => addresses_r xs xe (t_h t) cs
     | _, _ => []
     end.

(** all the addresses below a node, and of an element: what tree/tree/mod.rs 2003-2078 [range_delete_purge]
    frees *)
Fixpoint addrs_below (h : nat) (n : node) : list addr :=
  match h, n with
  | S h', Int cs => flat_map (fun e => opt_list (e_ptr e) ++ addrs_below h' (e_node e)) cs
  | _, _ => []
  end.
Definition addrs_elem (h : nat) (e : elem) : list addr := opt_list (e_ptr e) ++ addrs_below h (e_node e).

End TreeModel.

Arguments node : clear implicits.
Arguments elem : clear implicits.
Arguments tree : clear implicits.
