(** * Range deletion of the copy-on-write B-tree

    Model of [range_delete] and its subroutines in [bfffs-core/src/tree/tree/mod.rs].  The [HashSet] of the
    memory addresses of endangered nodes is modelled by the mark [e_mark] of the element that owns the node
    (a boxed node never moves).  Not modelled: a stale entry of the set that meets a node allocated later
    at the same memory address. *)
From Verif Require Import Common ZMap Tree_Model.

Section TreeRDModel.
Context {V : Type}.
Notation elem := (@elem V).
Notation node := (@node V).
Notation tree := (@tree V).

(** util.rs 156-164 [RangeBoundsExt::is_empty] *)
Definition range_is_empty (s e : bound) : bool :=
  match s, e with
  | Inc a, Inc b => b <? a
  | Inc a, Exc b => b <=? a
  | Exc a, Inc b => b <=? a
  | Exc a, Exc b => b <? a
  | _, _ => false
  end.

(** tree/node.rs 515-540 [range_delete_unaccredited]: [BTreeMap::extract_if] panics as [BTreeMap::range] does *)
Definition leaf_range_delete (l : list (Z * V)) (s e : bound) : option (list (Z * V)) :=
  if range_panics s e then None
  else Some (filter (fun kv => negb (above s (fst kv) && below e (fst kv))) l).

(** tree/tree/mod.rs 1527-1583 [range_delete_get_bounds].  [inl i] is [Included(i)], [inr i] is [Excluded(i)] *)
Definition rd_start (cs : list elem) (s : bound) : option (nat + nat) :=
  match s with
  | Unb => Some (inl O)
  | Inc t =>
      match n_key (Int cs) with
      | None => None
      | Some k0 =>
          if t <? k0 then Some (inl O) else
          let i := position cs t in
          match nth_error cs i with
          | None => None
          | Some c => if e_key c =? t then Some (inl i) else Some (inr i)
          end
      end
  | Exc t =>
      match n_key (Int cs) with
      | None => None
      | Some k0 => if t <? k0 then Some (inl O) else Some (inr (position cs t))
      end
  end.
Definition rd_end (cs : list elem) (e : bound) (ub : option Z) : option (nat + nat) :=
  let past t := match ub with Some u => u <=? t | None => false end in
  match e with
  | Unb => Some (inr (length cs))
  | Inc t =>
      let i := position cs t in
      if past t then Some (inr (S i)) else Some (inl i)
  | Exc t =>
      let i := position cs t in
      if past t then Some (inr (S i)) else
      match nth_error cs i with
      | None => None
      | Some c => if e_key c =? t then Some (inr i) else Some (inl i)
      end
  end.

Definition set_mark (e : elem) (m : bool) : elem := let 'Elem k s t p _ n := e in Elem k s t p m n.

(** tree/node.rs 872-926 [xlock_nc], where [leaf_child] is [height == 1] *)
Definition xlock_nc (txg : Z) (leaf_child : bool) (e : elem) : option (elem * list addr) :=
  let 'Elem k s _ p m n := e in
  match p with
  | None => Some (Elem k (if leaf_child then txg else s) (txg + 1) None m n, [])
  | Some a =>
      match n_key n, start_txg n txg with
      | Some k', Some s' => Some (Elem k' s' (txg + 1) None m n, [a])
      | _, _ => None
      end
  end.

(** tree/tree/mod.rs 1604-1776 [range_delete_pass1], for a node of height [h].  Result: the node, whether it is
    in danger, and the addresses freed.  The length the code returns is the node's own.
    2003-2078 [range_delete_purge] frees every address in the wholly deleted children. *)
Fixpoint rd_pass1 (lim : limits) (txg : Z) (s e : bound) (h : nat) (ub : option Z) (n : node)
  : option (node * bool * list addr) :=
  match h, n with
  | O, Leaf l =>
      match leaf_range_delete l s e with
      | None => None
      | Some l' => Some (Leaf l', underflow lim (Leaf l'), [])
      end
  | S h', Int cs =>
      match rd_start cs s, rd_end cs e ub with
      | Some sb, Some eb =>
          let left := match sb with inl _ => None | inr i => Some i end in
          let right := match eb with inl j => Some j | inr _ => None end in
          let wstart := match sb with inl i => i | inr i => S i end in
          let wend := match eb with inl j => j | inr j => j end in
          let same := match left, right with Some i, Some j => (i =? j)%nat | _, _ => false end in
          if same then
            match left with
            | None => None
            | Some i =>
                let ub' := if (S i =? length cs)%nat then ub else option_map e_key (nth_error cs (S i)) in
                match xlock_at txg cs i with
                | None => None
                | Some (cs1, c, popped) =>
                    match rd_pass1 lim txg s e h' ub' (e_node c) with
                    | None => None
                    | Some (n', dng, popped') =>
                        if (n_len n' =? 0)%nat then
                          let cs2 := firstn i cs1 ++ skipn (S i) cs1 in
                          Some (Int cs2, in_danger lim (Int cs2), popped ++ popped')
                        else
                          let cs2 := put_child cs1 i (set_mark (set_node c n') dng) in
                          Some (Int cs2, in_danger lim (Int cs2) || dng, popped ++ popped')
                    end
                end
            end
          else
            let side i :=
              match nth_error cs i with
              | None => None
              | Some c0 =>
                  let ub' := match nth_error cs (S i) with Some x => Some (e_key x) | None => ub end in
                  match xlock_nc txg (match h' with O => true | _ => false end) c0 with
                  | None => None
                  | Some (c, popped) =>
                      match rd_pass1 lim txg s e h' ub' (e_node c) with
                      | None => None
                      | Some (n', dng, popped') => Some (set_node c n', dng, popped ++ popped')
                      end
                  end
              end in
            let lres := match left with None => Some None | Some i => option_map Some (side i) end in
            let rres := match right with None => Some None | Some j => option_map Some (side j) end in
            if (wend <? wstart)%nat || (length cs <? wend)%nat then None else
            match lres, rres with
            | Some lo, Some ro =>
                let gone := flat_map (addrs_elem h') (firstn (wend - wstart) (skipn wstart cs)) in
                let keep (o : option (elem * bool * list addr)) :=
                  match o with
                  | None => []
                  | Some (c, dng, _) => if (n_len (e_node c) =? 0)%nat then [] else [set_mark c dng]
                  end in
                let dng (o : option (elem * bool * list addr)) :=
                  match o with Some (_, d, _) => d | None => false end in
                let freed (o : option (elem * bool * list addr)) :=
                  match o with Some (_, _, p) => p | None => [] end in
                let lcs := firstn (match left with Some i => i | None => wstart end) cs in
                let rcs := skipn (match right with Some j => S j | None => wend end) cs in
                let cs2 := lcs ++ keep lo ++ keep ro ++ rcs in
                Some (Int cs2, underflow lim (Int cs2) || dng lo || dng ro, freed lo ++ gone ++ freed ro)
            | _, _ => None
            end
      | _, _ => None
      end
  | _, _ => None
  end.

(** indices of the first two marked children (tree/tree/mod.rs 1886-1897); a child on disk is never taken *)
Fixpoint marked (cs : list elem) (i : nat) : list nat :=
  match cs with
  | [] => []
  | e :: r => if e_mark e && is_dirty e then i :: marked r (S i) else marked r (S i)
  end.
Definition to_fix (cs : list elem) : list nat := firstn 2 (marked cs 0).
Definition unmark_at (cs : list elem) (i : nat) : list elem :=
  match nth_error cs i with Some e => put_child cs i (set_mark e false) | None => cs end.

(** tree/tree/mod.rs 1906-1925, the closure [underflow] *)
Definition rd_underflow lim (n : node) (common : bool) : bool :=
  match n with
  | Leaf _ => underflow lim n
  | Int _ => if common then in_extra_danger lim n else in_danger lim n
  end.

(** tree/tree/mod.rs 1931-1970: fix the left child repeatedly.  [mb], [mm]: children merged before, after.
    [fuel] bounds the number of iterations. *)
Fixpoint rd_fix_left (fuel : nat) lim (txg : Z) (common0 : bool) (left : nat) (cs : list elem) (mb mm : nat)
  (stole : bool) : option (list elem * nat * nat * list addr) :=
  match fuel with
  | O => None
  | S fuel' =>
      if (left <? mb)%nat then None else
      match nth_error cs (left - mb) with
      | None => None
      | Some c =>
          let common := common0 || (0 <? mm)%nat || stole in
          if negb (rd_underflow lim (e_node c) common) || (length cs <=? 1)%nat then Some (cs, mb, mm, [])
          else
            match fix_int lim txg cs (left - mb) with
            | None => None
            | Some (cs1, nmb, nma, popped) =>
                if (left - mb <? nmb)%nat then None else
                match xlock_at txg cs1 (left - mb - nmb) with
                | None => None
                | Some (cs2, _, popped2) =>
                    match rd_fix_left fuel' lim txg common0 left cs2 (mb + nmb) (mm + nma)
                            (((nma =? 0)%nat && (nmb =? 0)%nat) || stole) with
                    | None => None
                    | Some (cs3, mb', mm', popped3) => Some (cs3, mb', mm', popped ++ popped2 ++ popped3)
                    end
                end
            end
      end
  end.

(** tree/tree/mod.rs 1869-1998 [range_delete_pass2_r] *)
Fixpoint rd_pass2_r (lim : limits) (txg : Z) (h : nat) (n : node) : option (node * list addr) :=
  match n with
  | Leaf _ => Some (n, [])
  | Int cs =>
    match to_fix cs with
    | [] => Some (n, [])
    | lidx :: rest =>
      match h with
      | O => None
      | S h' =>
        let right := match rest with r :: _ => Some r | [] => None end in
        let cs0 := match right with Some r => unmark_at (unmark_at cs lidx) r | None => unmark_at cs lidx end in
        match xlock_at txg cs0 lidx with
        | None => None
        | Some (cs1, _, p1) =>
          match rd_fix_left (length cs + max_int lim + max_leaf lim + 2) lim txg
                  (match right with None => true | Some _ => false end) lidx cs1 0 0 false with
          | None => None
          | Some (cs2, mb, mm, p2) =>
            match nth_error cs2 (lidx - mb) with
            | None => None
            | Some c =>
              match rd_pass2_r lim txg h' (e_node c) with
              | None => None
              | Some (nc, p3) =>
                let cs3 := put_child cs2 (lidx - mb) (set_node c nc) in
                match right with
                | Some r =>
                  if (mm =? 0)%nat then
                    if (r <? mb)%nat then None else
                    let j := (r - mb)%nat in
                    match xlock_at txg cs3 j with
                    | None => None
                    | Some (cs4, rc, p4) =>
                      let fixed :=
                        if rd_underflow lim (e_node rc) false then
                          match fix_int lim txg cs4 j with
                          | None => None
                          | Some (cs5, nmb, _, p5) =>
                              if (j <? nmb)%nat then None else
                              match xlock_at txg cs5 (j - nmb) with
                              | None => None
                              | Some (cs6, rc', p6) => Some (cs6, (j - nmb)%nat, rc', p5 ++ p6)
                              end
                          end
                        else Some (cs4, j, rc, []) in
                      match fixed with
                      | None => None
                      | Some (cs6, j', rc', p5) =>
                        match rd_pass2_r lim txg h' (e_node rc') with
                        | None => None
                        | Some (nr, p6) =>
                            Some (Int (put_child cs6 j' (set_node rc' nr)), p1 ++ p2 ++ p3 ++ p4 ++ p5 ++ p6)
                        end
                      end
                    end
                  else Some (Int cs3, p1 ++ p2 ++ p3)
                | None => Some (Int cs3, p1 ++ p2 ++ p3)
                end
              end
            end
          end
        end
      end
    end
  end.

(** tree/tree/mod.rs 1811-1828 and 1835-1857: merge the root down while it has at most one child *)
Fixpoint merge_root_down (fuel : nat) (txg : Z) (t : tree) : option (tree * list addr) :=
  match fuel with
  | O => None
  | S fuel' =>
      match xlock_and_merge_root txg t with
      | None => None
      | Some (t1, p1) =>
          match e_node (t_root t1) with
          | Leaf _ => Some (t1, p1)
          | Int cs =>
              if (1 <? length cs)%nat then Some (t1, p1)
              else match merge_root_down fuel' txg t1 with
                   | None => None
                   | Some (t2, p2) => Some (t2, p1 ++ p2)
                   end
          end
      end
  end.

(** the [HashSet] is dropped when [range_delete] returns *)
Fixpoint clear_marks (h : nat) (n : node) : node :=
  match h, n with
  | S h', Int cs => Int (map (fun e => set_mark (set_node e (clear_marks h' (e_node e))) false) cs)
  | _, _ => n
  end.

(** tree/tree/mod.rs 1479-1513 [range_delete] and 1793-1862 [range_delete_pass2] *)
Definition range_delete lim (txg : Z) (s e : bound) (t : tree) : option (tree * list addr) :=
  if range_is_empty s e then Some (t, []) else
  let (r, p0) := xlock_root txg (t_root t) in
  match rd_pass1 lim txg s e (t_h t) None (e_node r) with
  | None => None
  | Some (n1, _, p1) =>
      match merge_root_down (S (S (t_h t))) txg (Tree (set_node r n1) (t_h t)) with
      | None => None
      | Some (t2, p2) =>
          match rd_pass2_r lim txg (t_h t2) (e_node (t_root t2)) with
          | None => None
          | Some (n3, p3) =>
              match merge_root_down (S (S (t_h t2))) txg (Tree (set_node (t_root t2) n3) (t_h t2)) with
              | None => None
              | Some (t4, p4) =>
                  Some (Tree (set_mark (set_node (t_root t4) (clear_marks (t_h t4) (e_node (t_root t4)))) false) (t_h t4),
                        p0 ++ p1 ++ p2 ++ p3 ++ p4)
              end
          end
      end
  end.

End TreeRDModel.
