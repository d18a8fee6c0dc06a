(** Flushing a B-tree when writes may fail: tree/tree/mod.rs 896-1100, on the trees of [Tree_Model].

    While a node is written its parent's pointer is [TreePtr::None] (tree/node.rs 205-208), for the node has been taken out.  If the write fails, nothing puts
    it back.  Each iteration of the flush is atomic, as in [Tree_Model]; of the other operations only the lookup is here.
    A flush that is dropped before it ends, as when another tree's flush fails, is like one whose current write fails. *)
From Verif Require Import Common ZMap Tree_Model.

Section TreeFail.
Context {V : Type}.
Implicit Types (e : elem V) (cs : list (elem V)) (n : node V) (t : tree V).

(** tree/node.rs 208 [TreePtr::None], as an address that is never handed out.  The node behind it is the one that was taken: it is kept for the specification,
    nothing here looks at it. *)
Definition nowhere : addr := Addr (-1) 0.
Definition gone e : bool := match e_ptr e with Some a => a_id a =? -1 | None => false end.
(** tree/node.rs 255-257 [TreePtr::take] *)
Definition lose e : elem V := let 'Elem k s t _ m n := e in Elem k s t (Some nowhere) m n.
(** what [flush] does with a node that was written (tree/tree/mod.rs 961-963, 975-978, 1012-1014, 1075-1077) *)
Definition written (s txg nx : Z) e : elem V := let 'Elem k _ _ _ m n := e in Elem k s (txg + 1) (Some (Addr nx txg)) m n.

(** What becomes of the write of a node: it succeeds; it fails, or is given up when another write fails; or that other write fails before the node is taken. *)
Inductive fate := Written | Lost | Kept.
Definition is_lost (f : fate) : bool := match f with Lost => true | _ => false end.

(** tree/tree/mod.rs 992-1030 [flush_leaves] when a write fails: the futures of the other leaves are dropped in whatever state they are.  [w]: by key *)
Fixpoint leaves_fates (txg : Z) (w : Z -> fate) (nx : Z) cs : list (elem V) * Z :=
  match cs with
  | [] => ([], nx)
  | e :: r =>
      if is_dirty e then
        match w (e_key e) with
        | Written => let (r', nx') := leaves_fates txg w (nx + 1) r in (written txg txg nx e :: r', nx')
        | Lost => let (r', nx') := leaves_fates txg w nx r in (lose e :: r', nx')
        | Kept => let (r', nx') := leaves_fates txg w nx r in (e :: r', nx')
        end
      else let (r', nx') := leaves_fates txg w nx r in (e :: r', nx')
  end.
(** tree/tree/mod.rs 992-1030 [flush_leaves]; the result is true if it fails *)
Definition flush_leaves_f (txg : Z) (w : Z -> fate) (nx : Z) cs : list (elem V) * Z * bool :=
  if existsb (fun e => is_dirty e && is_lost (w (e_key e))) cs then (leaves_fates txg w nx cs, true)
  else (flush_leaves txg nx cs, false).

Inductive rres := Next (k : option Z) | RFailed | RPanicked.

(** tree/tree/mod.rs 1038-1084 [flush_r].  Writing a node one of whose children is gone panics: tree/node.rs 295-297 asks for the child's address. *)
Fixpoint flush_r_f (txg : Z) (w : Z -> fate) (h : nat) (lowest nx : Z) cs : list (elem V) * Z * rres :=
  match h with
  | O => (cs, nx, RPanicked)
  | S O => let '(cs', nx', failed) := flush_leaves_f txg w nx cs in (cs', nx', if failed then RFailed else Next None)
  | S h' =>
      let idx0 := position cs lowest in
      let idx := skip_clean (skipn idx0 cs) idx0 in
      match nth_error cs idx with
      | None => (cs, nx, Next None)
      | Some e =>
          let next_key := option_map e_key (nth_error cs (S idx)) in
          match e with
          | Elem _ _ _ _ _ (Leaf _) => (cs, nx, RPanicked)
          | Elem k s t p m (Int cs1) =>
              if existsb is_dirty cs1 then
                let '(cs1', nx', r) := flush_r_f txg w h' lowest nx cs1 in
                (put_child cs idx (Elem k s t p m (Int cs1')), nx', match r with Next None => Next next_key | _ => r end)
              else
                match min_ts cs1 with
                | None => (cs, nx, RPanicked)
                | Some st =>
                    if existsb gone cs1 then (put_child cs idx (lose e), nx, RPanicked)
                    else if is_lost (w k) then (put_child cs idx (lose e), nx, RFailed)
                    else (put_child cs idx (written st txg nx e), nx + 1, Next next_key)
                end
          end
      end
  end.

Inductive ires := Goes (k : Z) | Again | Done | Failed | Panicked.

(** tree/tree/mod.rs 924-984 [flush_once], one iteration *)
Definition flush_iter_f (txg : Z) (w : Z -> fate) (lowest nx : Z) t : tree V * Z * ires :=
  if is_dirty (t_root t) then
    let (e, _) := xlock_root txg (t_root t) in
    match e with
    | Elem k s te p m (Int cs) =>
        if existsb is_dirty cs then
          let '(cs', nx', r) := flush_r_f txg w (t_h t) lowest nx cs in
          (Tree (Elem k s te p m (Int cs')) (t_h t), nx',
           match r with Next (Some key) => Goes key | Next None => Again | RFailed => Failed | RPanicked => Panicked end)
        else
          match min_ts cs with
          | None => (Tree e (t_h t), nx, Panicked)
          | Some st =>
              if existsb gone cs then (Tree (lose e) (t_h t), nx, Panicked)
              else if is_lost (w k) then (Tree (lose e) (t_h t), nx, Failed)
              else (Tree (written st txg nx e) (t_h t), nx + 1, Done)
          end
    | Elem k _ _ _ _ (Leaf _) =>
        if is_lost (w k) then (Tree (lose e) (t_h t), nx, Failed) else (Tree (written txg txg nx e) (t_h t), nx + 1, Done)
    end
  else (t, nx, Done).

(** tree/tree/mod.rs 896-901 [flush]: [w] has the fates in each iteration.  None: [fuel] is too small. *)
Fixpoint flush_f (fuel : nat) (txg : Z) (w : nat -> Z -> fate) (lowest nx : Z) t : option (tree V * Z * ires) :=
  match fuel with
  | O => None
  | S fuel' =>
      match flush_iter_f txg (w O) lowest nx t with
      | (t', nx', Goes k) => flush_f fuel' txg (fun i => w (S i)) k nx' t'
      | (t', nx', Again) => flush_f fuel' txg (fun i => w (S i)) 0 nx' t'
      | r => Some r
      end
  end.

(** tree/tree/mod.rs 1090-1127 [get], [get_r], with tree/node.rs 1030-1057 [IntElem::rlock], which panics if the node is gone *)
Fixpoint get_rf (h : nat) n (k : Z) : option (option V) :=
  match n with
  | Leaf l => Some (zm_get k l)
  | Int cs =>
      match h, nth_error cs (position cs k) with
      | S h', Some e => if gone e then None else get_rf h' (e_node e) k
      | _, _ => None
      end
  end.
Definition get_f t (k : Z) : option (option V) := if gone (t_root t) then None else get_rf (t_h t) (e_node (t_root t)) k.

(** tree/tree/mod.rs 2160-2173 [serialize]: None is a panic *)
Definition serialize_f t : option (nat * (addr * node V) * (Z * Z)) := if gone (t_root t) then None else serialize t.
End TreeFail.
