(** The locks that operations on a tree hold and wait for.

    Models, from /repo/bfffs-core/src/tree:
    - tree/mod.rs 1097-1131 (get), 1369-1404 (last_key), 2385-2468
      (get_dirty_nodes): [Look];
    - tree/mod.rs 1136-1247 (get_range): [Rng];
    - tree/mod.rs 1260-1338 (insert), 2097-2160 (remove), 832-891 (fix_int),
      924-1087 (flush_once, flush_leaves, flush_r), 2472-2556 (rewrite_node),
      2203-2294 (xlock_root, xlock_and_merge_root); node.rs 815-925 (xlock,
      xlock_nc): [Fan];
    - tree/mod.rs 1478-2005 (range_delete), 2014-2093 (range_delete_purge),
      node.rs 938-972 (drain_xlock), all exclusively; tree/mod.rs 478-544
      (addresses), 741-830 (dump), for reading: [Whole].

    Lock number 0 is the tree's own ([Tree::root]); the others are those of
    its nodes.  What is modelled of an operation is which locks it has, which
    it waits for, and which it may ask for next.  Which child it asks for
    depends on keys and is left open.  An operation may stop at any moment
    when it waits for nothing (leaf reached, error).

    Left out: [check], which audits an idle tree; waiting for the disk, for
    the cache and for lower layers, which use none of this tree's locks. *)
From Coq Require Import List Arith Bool Lia.
Import ListNotations.

(** What an operation has and waits for. *)
Inductive task :=
| Idle (t : start)
| Top (t : start)                      (* waits for the tree's own lock *)
| Look (n : nat)                       (* has n *)
| LookWait (n c : nat)                 (* has n, waits for c *)
| LookBoth (n c : nat)                 (* has both *)
| Rng (g : nat) (nx : option nat)      (* has g and the node to its right *)
| RngWait (g : nat) (nx : option nat) (c : nat) (c' : option nat)
          (got got' : bool)            (* waits for c and c' unless it got them *)
| Fan (n : nat) (kids ws : list nat)   (* has n and some of its children,
                                          waits for other children *)
| Whole (w : bool) (held ws : list nat)
| Done
with start := SLook | SRng | SFan | SWhole (w : bool).

Definition opt (o : option nat) : list nat :=
  match o with Some x => [x] | None => [] end.

(** The locks it has. *)
Definition held (t : task) : list nat :=
  match t with
  | Idle _ | Top _ | Done => []
  | Look n | LookWait n _ => [n]
  | LookBoth n c => [n; c]
  | Rng g nx => g :: opt nx
  | RngWait g nx c c' got got' =>
      g :: opt nx ++ (if got then [c] else []) ++ (if got' then opt c' else [])
  | Fan n kids _ => n :: kids
  | Whole _ h _ => h
  end.

(** The locks it waits for. *)
Definition wants (t : task) : list nat :=
  match t with
  | Top _ => [0]
  | LookWait _ c => [c]
  | RngWait _ _ c c' got got' =>
      (if got then [] else [c]) ++ (if got' then [] else opt c')
  | Fan _ _ ws => ws
  | Whole _ _ ws => ws
  | _ => []
  end.

(** Does it lock exclusively? *)
Definition writes (t : task) : bool :=
  match t with
  | Fan _ _ _ | Top SFan => true
  | Whole w _ _ | Top (SWhole w) => w
  | _ => false
  end.

Record st := mkSt {
  up : nat -> option nat;   (* a node's parent; None: not in the tree *)
  lev : nat -> nat;         (* a node's height; of the tree's own lock: more *)
  tasks : list task }.

(** The lock's owner lets task [i] have lock [n]: futures-locks' RwLock. *)
Definition may_have (ts : list task) (i : nat) (n : nat) : Prop :=
  forall j u, j <> i -> nth_error ts j = Some u -> In n (held u) ->
    writes u = false /\ match nth_error ts i with
                        | Some t => writes t = false | None => False end.

Fixpoint set_task (i : nat) (t : task) (ts : list task) {struct ts} : list task :=
  match ts, i with
  | [], _ => []
  | _ :: r, O => t :: r
  | u :: r, S i' => u :: set_task i' t r
  end.

(** What the task becomes with lock [n], for which it waited. *)
Inductive grant : nat -> task -> task -> Prop :=
(* tree/mod.rs 1100, 1126-1131 *)
| g_look : grant 0 (Top SLook) (Look 0)
| g_look_child : forall n c, grant c (LookWait n c) (LookBoth n c)
(* tree/mod.rs 1145-1152, 1241-1245 *)
| g_rng : grant 0 (Top SRng) (Rng 0 None)
| g_rng_child : forall g nx c c' got',
    grant c (RngWait g nx c c' false got') (RngWait g nx c c' true got')
| g_rng_next : forall g nx c x got,
    grant x (RngWait g nx c (Some x) got false) (RngWait g nx c (Some x) got true)
(* tree/mod.rs 1263, 938, 2475, 2100 *)
| g_fan : grant 0 (Top SFan) (Fan 0 [] [])
| g_fan_child : forall n kids ws1 c ws2,
    grant c (Fan n kids (ws1 ++ c :: ws2)) (Fan n (c :: kids) (ws1 ++ ws2))
(* tree/mod.rs 1499, 489, 758 *)
| g_whole : forall w, grant 0 (Top (SWhole w)) (Whole w [0] [])
| g_whole_child : forall w h ws1 c ws2,
    grant c (Whole w h (ws1 ++ c :: ws2)) (Whole w (c :: h) (ws1 ++ ws2)).

(** What a task may do by itself.  [P c n]: c is a child of n. *)
Inductive own (P : nat -> nat -> Prop) : task -> task -> Prop :=
| o_begin : forall k, own P (Idle k) (Top k)
(* get_r, last_key_r: rlock of a child; drop of the parent *)
| o_look : forall n c, P c n -> own P (Look n) (LookWait n c)
| o_look_drop : forall n c, own P (LookBoth n c) (Look c)
(* get_range_r 1186-1237: a child alone, keeping the right neighbour ... *)
| o_rng : forall g nx c, P c g -> own P (Rng g nx) (RngWait g nx c None false false)
(* ... or a child and the next one.  The root has no neighbour. *)
| o_rng_two : forall g nx c x, P c g -> P x g -> g <> 0 -> c <> x ->
    own P (Rng g nx) (RngWait g None c (Some x) false false)
(* 1241-1245: drop(guard).  The next node may have turned out to be beyond
   the range: 1215-1227. *)
| o_rng_drop : forall g nx c, own P (RngWait g nx c None true false) (Rng c nx)
| o_rng_drop_two : forall g c x,
    own P (RngWait g None c (Some x) true true) (Rng c (Some x))
| o_rng_drop_far : forall g c x,
    own P (RngWait g None c (Some x) true true) (Rng c None)
(* 1171-1175: nothing in this leaf, go on in the next *)
| o_rng_right : forall g x, own P (Rng g (Some x)) (Rng x None)
(* xlock, xlock_nc of a child; flush_leaves asks for many *)
| o_fan : forall n kids ws c, P c n -> ~ In c kids -> ~ In c ws ->
    own P (Fan n kids ws) (Fan n kids (c :: ws))
(* drop of a child, after a split, merge or steal *)
| o_fan_drop_kid : forall n k1 c k2 ws,
    own P (Fan n (k1 ++ c :: k2) ws) (Fan n (k1 ++ k2) ws)
(* drop(parent) *)
| o_fan_down : forall n c, own P (Fan n [c] []) (Fan c [] [])
(* range_delete and friends *)
| o_whole : forall w h ws c n, P c n -> In n h -> ~ In c h -> ~ In c ws ->
    own P (Whole w h ws) (Whole w h (c :: ws))
| o_whole_drop : forall w h1 c h2 ws,
    (forall x, P x c -> ~ In x (h1 ++ h2) /\ ~ In x ws) -> c <> 0 ->
    own P (Whole w (h1 ++ c :: h2) ws) (Whole w (h1 ++ h2) ws)
(* the end of an operation: waits for nothing, drops all guards *)
| o_end : forall t, wants t = [] -> (forall k, t <> Idle k) -> t <> Done ->
    own P t Done.

(** Nodes that nobody has or waits for. *)
Definition unused (ts : list task) (x : nat) : Prop :=
  forall u, In u ts -> ~ In x (held u) /\ ~ In x (wants u).

(** What a task may do to the tree while it has exclusive locks: splits,
    merges, steals, the root's growing and shrinking, deletions (tree/mod.rs
    1268-1279, 1303-1309, 858-889, 2225-2246, 1683-1690, 1757-1790).  Children
    move only between nodes that it has locked, or new ones, or those that it
    locked and released with the parent still locked (2228-2233); the last two
    are nodes that nobody uses.  Only the root's height may change (comment at
    955), with the tree's own lock held.  Simplified: a node that is taken out
    of the tree is unlocked first, where the code may drop its guard just
    after.  The tree stays balanced, which Tree_Props proves. *)
Record restructure (s : st) (t : task) (up' : nat -> option nat)
       (lev' : nat -> nat) : Prop := mkRestr {
  r_writes : writes t = true;
  r_up : forall x, up' x <> up s x ->
    ~ In x (held t) /\ ~ In x (wants t) /\
    (match up s x with
     | Some p => In p (held t) \/ unused (tasks s) p
     | None => unused (tasks s) x end) /\
    (match up' x with
     | Some p => In p (held t) \/ unused (tasks s) p
     | None => True end);
  r_lev : forall x, lev' x <> lev s x ->
    unused (tasks s) x \/
    (In x (held t) /\ match up s x with Some p => In p (held t) | None => x = 0 end);
  r_top : up' 0 = None;
  r_below : forall c p, up' c = Some p -> lev' c < lev' p /\ lev' c < lev' 0;
  r_balanced : forall c p, up' c = Some p -> p <> 0 -> lev' p = S (lev' c) }.

Definition child_of (s : st) (c n : nat) : Prop := up s c = Some n.

(** One step of task [i]. *)
Inductive step (s : st) (i : nat) : st -> Prop :=
| s_grant : forall n t t', nth_error (tasks s) i = Some t ->
    grant n t t' -> may_have (tasks s) i n ->
    step s i (mkSt (up s) (lev s) (set_task i t' (tasks s)))
| s_own : forall t t', nth_error (tasks s) i = Some t ->
    own (child_of s) t t' ->
    step s i (mkSt (up s) (lev s) (set_task i t' (tasks s)))
| s_restructure : forall t up' lev', nth_error (tasks s) i = Some t ->
    restructure s t up' lev' ->
    step s i (mkSt up' lev' (tasks s)).

Inductive steps : st -> st -> Prop :=
| steps_refl : forall s, steps s s
| steps_trans : forall s i s1 s2, step s i s1 -> steps s1 s2 -> steps s s2.
