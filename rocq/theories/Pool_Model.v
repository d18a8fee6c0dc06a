(** Model of a pool of several clusters (bfffs-core/src/pool.rs), of the listing of its closed zones (bfffs-core/src/ddml/ddml.rs
    [ListClosedZones]) and of the choice of zones to clean (bfffs-core/src/cleaner.rs).  The clusters are those of FSM_Model.v and the
    floating-point numbers those of Float_Model.v.

    Simplifications: the operations of the pool are atomic, except that a write or a read is under way until it is reported as finished.
    UUIDs, labels, health and repairs are not modelled here (see Label_Model.v, Vdev_Model.v and Repair_Model.v). *)
From Verif Require Import Common ZMap FSM_Model Float_Model.
From Flocq Require Import BinarySingleNaN.
From Coq Require Import Permutation Sorted.
Open Scope Z_scope.

(** What the pool knows of a cluster: pool.rs:122-131, [Stats::size] and [optimum_queue_depth] *)
Record cgeo := CGeo { cg_v : vdev; cg_size : Z; cg_opt : Z }.

(** pool.rs:121-136 and 177-188.  The queue depths are 32-bit and the used space 64-bit atomics; both wrap. *)
Record pool := Pool { p_cl : list cluster; p_used : Z; p_depth : list Z }.

Definition add32 (a b : Z) : Z := (a + b) mod 2^32.
Definition add_used (a b : Z) : Z := (a + b) mod 2^64.
Definition bump (d : list Z) (i : nat) (n : Z) : list Z := match nth_error d i with Some x => list_upd d i (add32 x n) | None => d end.

(** The literal [0.95]: 8556839292003942 * 2^-53 is the closest [f64]. *)
Definition F095 : f64 := @B754_finite 53 1024 false 8556839292003942 (-53) eq_refl.

(** pool.rs:226-236, the closure of [choose_cluster] *)
Definition weight (g : cgeo) (c : cluster) (d : Z) : f64 :=
  let space_util := div64 (to_f64 (alloc_space c)) (to_f64 (cg_size g)) in
  let queue_fraction := div64 (to_f64 d) (to_f64 (cg_opt g)) in
  let q_coeff := match Bcompare F095 space_util with Some Gt => sub64 F095 space_util | _ => B754_zero false end in
  add64 (mul64 q_coeff queue_fraction) space_util.
Fixpoint weights (gs : list cgeo) (cs : list cluster) (ds : list Z) : list f64 :=
  match gs, cs, ds with g :: gs, c :: cs, d :: ds => weight g c d :: weights gs cs ds | _, _, _ => [] end.

(** pool.rs:237-239: [min_by] with [partial_cmp().unwrap()]: the first one of the least, or a panic for an unordered pair or an empty list *)
Fixpoint min_from (best : nat) (w : f64) (i : nat) (l : list f64) : option nat :=
  match l with
  | [] => Some best
  | x :: r => match Bcompare w x with
              | None => None
              | Some Gt => min_from i x (S i) r
              | Some _ => min_from best w (S i) r
              end
  end.
Definition choose (ws : list f64) : option nat := match ws with [] => None | w :: r => min_from 0 w 1 r end.

Section Pool.
Context (gs : list cgeo).

(** Do the same with all clusters; calls to the vdev of cluster [i] are marked with [i]. *)
Fixpoint each (i : nat) (k : vdev -> cluster -> option (cluster * list vop)) (gs : list cgeo) (cs : list cluster) :
    option (list cluster * list (nat * vop)) :=
  match gs, cs with
  | [], [] => Some ([], [])
  | g :: gs, c :: cs =>
      let* (c, o) := k (cg_v g) c in
      let* (cs, o') := each (S i) k gs cs in
      Some (c :: cs, map (pair i) o ++ o')
  | _, _ => None
  end.

(** pool.rs:241-245 [create] and 289-313 [new] *)
Definition pool_create : pool :=
  Pool (map (fun g => cluster_create (cg_v g)) gs) 0 (map (fun _ => 0) gs).

(** pool.rs:504-521 [write] up to the future it returns; the result is the address, or [None] for ENOSPC. *)
Definition pool_write (space txg : Z) (p : pool) : option (pool * option (nat * Z) * list (nat * vop)) :=
  let* i := choose (weights gs (p_cl p) (p_depth p)) in
  let* g := nth_error gs i in
  let* c := nth_error (p_cl p) i in
  let* (c, r, o) := write (cg_v g) space txg c in
  let cs := list_upd (p_cl p) i c in
  match r with
  | WOk lba => Some (Pool cs (p_used p) (bump (p_depth p) i 1), Some (i, lba), map (pair i) o)
  | WNoSpace => Some (Pool cs (p_used p) (p_depth p), None, map (pair i) o)
  end.

(** pool.rs:552-567 [Write::poll], once the write of [space] blocks to cluster [i] has finished, with or without an error *)
Definition pool_write_done (i : nat) (space : Z) (ok : bool) (p : pool) : pool :=
  Pool (p_cl p) (if ok then add_used (p_used p) space else p_used p) (bump (p_depth p) i (-1)).

(** pool.rs:406-418 [read], its beginning and its end; [read_long], 428-440, is the same *)
Definition pool_read (i : nat) (p : pool) : pool := Pool (p_cl p) (p_used p) (bump (p_depth p) i 1).
Definition pool_read_done (i : nat) (p : pool) : pool := Pool (p_cl p) (p_used p) (bump (p_depth p) i (-1)).

(** pool.rs:272-275 [free] *)
Definition pool_free (i : nat) (lba len : Z) (p : pool) : option pool :=
  let u := add_used (p_used p) (- len) in
  let* g := nth_error gs i in
  let* c := nth_error (p_cl p) i in
  let* c := free (cg_v g) lba len c in
  Some (Pool (list_upd (p_cl p) i c) u (p_depth p)).

(** pool.rs:192-200 [advance_transaction] *)
Definition pool_advance (p : pool) : option (pool * list (nat * vop)) :=
  let* (cs, o) := each 0 (fun _ c => Some (advance c)) gs (p_cl p) in
  Some (Pool cs (p_used p) (p_depth p), o).

(** pool.rs:253-261 [flush] with index 0 and then with index 1, as the database does at the end of a transaction.  The clusters do not
    depend on one another, so that it does not matter that both flushes of a cluster come together here. *)
Definition pool_sync (p : pool) : option (pool * list (nat * vop)) :=
  let* (cs, o) := each 0 (fun v c => let* (c, o) := flush v 0 c in let* (c, o') := flush v 1 c in Some (c, o ++ o')) gs (p_cl p) in
  Some (Pool cs (p_used p) (p_depth p), o).

(** pool.rs:382-404 [open] and 289-313 [new] *)
Definition pool_open (p : pool) : option (pool * list (nat * vop)) :=
  let* (cs, o) := each 0 (fun v c => reopen v c) gs (p_cl p) in
  let* us := omap used cs in
  Some (Pool cs (fold_left add_used us 0) (map (fun _ => 0) gs), o).

(** cluster.rs:935-945 and 402-425 [find_closed_zone], and the fields of [ClosedZone] *)
Record cz := CZ { cz_id : Z; cz_start : Z; cz_freed : Z; cz_total : Z; cz_ts : Z; cz_te : Z }.
Definition find_closed (v : vdev) (c : cluster) (start : Z) : option cz :=
  let* z := find (is_closed (fs c)) (zrange start (zlen (zones (fs c)))) in
  let* x := lget (zones (fs c)) z in
  Some (CZ z (fst (v_lim v z)) (freed x) (total x) (ts x) (te x)).

(** ddml.rs:43-64 [ListClosedZones::next] with pool.rs:345-371 [find_closed_zone].  [fuel] bounds the loop; without enough of it the
    result is [None], as for a panic. *)
Fixpoint lcz_next (fuel : nat) (p : pool) (i : nat) (z : Z) : option (option (nat * cz) * (nat * Z)) :=
  match fuel with
  | O => None
  | S n =>
      let* g := nth_error gs i in
      let* c := nth_error (p_cl p) i in
      match find_closed (cg_v g) c z with
      | Some x => Some (Some (i, x), (i, cz_id x + 1))
      | None => if Z.of_nat i <? zlen (p_cl p) - 1 then lcz_next n p (S i) 0 else Some (None, (i, z))
      end
  end.
(** All that the iterator yields: ddml.rs:290-297 [list_closed_zones] and [collect] *)
Fixpoint lcz_all (fuel : nat) (p : pool) (i : nat) (z : Z) : option (list (nat * cz)) :=
  match fuel with
  | O => None
  | S n =>
      let* (r, st) := lcz_next fuel p i z in
      match r with
      | None => Some []
      | Some x => let* l := lcz_all n p (fst st) (snd st) in Some (x :: l)
      end
  end.
Definition list_closed_zones (fuel : nat) (p : pool) : option (list (nat * cz)) := lcz_all fuel p 0 0.
End Pool.

(** cleaner.rs:69 *)
Definition dirtiness (x : nat * cz) : f32 := div32 (to_f32 (cz_freed (snd x))) (to_f32 (cz_total (snd x))).
(** cleaner.rs:68-71, the filter of [select_zones]; [>=] is false for NaN *)
Definition dirty_enough (thr : f32) (x : nat * cz) : bool :=
  match Bcompare (dirtiness x) thr with Some Gt | Some Eq => true | _ => false end.
(** cleaner.rs:75-81, the comparison given to [sort_unstable_by]: [Some Lt] if [a] goes before [b] *)
Definition zone_cmp (a b : nat * cz) : option comparison := Bcompare (Bopp (dirtiness a)) (Bopp (dirtiness b)).
(** cleaner.rs:62-84 [select_zones].  The order of equal elements is not determined: [selects thr l l'] says that [l'] is one of the
    possible results for the closed zones [l]. *)
Definition selects (thr : f32) (l l' : list (nat * cz)) : Prop :=
  Permutation (filter (dirty_enough thr) l) l' /\ StronglySorted (fun a b => zone_cmp a b <> Some Gt /\ zone_cmp a b <> None) l'.
(** cleaner.rs:99 *)
Definition DEFAULT_THRESHOLD : f32 := @B754_finite 24 128 false 8388608 (-24) eq_refl.
