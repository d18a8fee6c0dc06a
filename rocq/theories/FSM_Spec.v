(** Vocabulary for the cluster's properties (C13-C16, C56): what a history of
    cluster operations is, which extents its client still holds, and what a
    zoned device accepts.  None of it refers to the free-space map. *)
From Verif Require Import Common ZMap FSM_Model.

(** The vdev's zones: disjoint, non-empty, a whole number of stripes, and
    smaller than 2^32-1 blocks (the code keeps counts in a [u32] and uses
    [u32::MAX] as a marker). *)
Record geometry (v : vdev) : Prop := {
  g_zones : 0 <= v_zones v;
  g_stripe : 0 < v_stripe v;
  g_size : forall z, 0 <= z < v_zones v -> fst (v_lim v z) < snd (v_lim v z) < fst (v_lim v z) + U32MAX;
  g_aligned : forall z, 0 <= z < v_zones v -> (snd (v_lim v z) - fst (v_lim v z)) mod v_stripe v = 0;
  g_zone_of : forall lba z, v_zone_of v lba = Some z <->
                0 <= z < v_zones v /\ fst (v_lim v z) <= lba < snd (v_lim v z)
}.

(** The operations of a cluster's client. [CSync] is what the database does at
    the end of a transaction (space map 0, then space map 1); [CRemount] closes
    the cluster and opens it again from its space map. *)
Inductive cop :=
| CWrite (space txg : Z)
| CFree (lba len : Z)
| CAdvance
| CSync
| CRemount.

Inductive cres := RWrite (r : wres) | RUnit.

Definition step (v : vdev) (c : cluster) (op : cop) : option (cluster * cres * list vop) :=
  match op with
  | CWrite space txg => let* (c, r, o) := write v space txg c in Some (c, RWrite r, o)
  | CFree lba len => let* c := free v lba len c in Some (c, RUnit, [])
  | CAdvance => let (c, o) := advance c in Some (c, RUnit, o)
  | CSync => let* (c, o) := flush v 0 c in
             let* (c, o') := flush v 1 c in Some (c, RUnit, o ++ o')
  | CRemount => let* (c, o) := reopen v c in Some (c, RUnit, o)
  end.

Definition extent := (Z * Z)%type. (* first LBA, number of LBAs *)

Definition extent_eqb (a b : extent) : bool := (fst a =? fst b) && (snd a =? snd b).

Fixpoint remove_one (e : extent) (l : list extent) : list extent :=
  match l with
  | [] => []
  | x :: r => if extent_eqb e x then r else x :: remove_one e r
  end.

(** The extents the client holds after an operation. *)
Definition live_next (live : list extent) (op : cop) (r : cres) : list extent :=
  match op, r with
  | CWrite space _, RWrite (WOk lba) => (lba, space) :: live
  | CFree lba len, _ => remove_one (lba, len) live
  | _, _ => live
  end.

(** The client's obligations: it writes something, frees only what it holds,
    and only remounts just after a sync. *)
Definition legal (live : list extent) (clean : bool) (op : cop) : Prop :=
  match op with
  | CWrite space txg => 0 < space < 2^32 /\ 0 <= txg < TXG_MAX
  | CFree lba len => In (lba, len) live
  | CAdvance | CSync => True
  | CRemount => clean = true
  end.

Definition clean_next (op : cop) : bool := match op with CSync | CRemount => true | _ => false end.

(** [reach v c live clean tr]: some legal history leads from a newly created
    cluster to [c]; the client then holds [live] and the vdev has received the
    calls [tr]. *)
Inductive reach (v : vdev) : cluster -> list extent -> bool -> list vop -> Prop :=
| reach_init : reach v (cluster_create v) [] false []
| reach_step c live cl tr op c' r o :
    reach v c live cl tr -> legal live cl op -> step v c op = Some (c', r, o) ->
    reach v c' (live_next live op r) (clean_next op) (tr ++ o).

(** Two extents have no LBA in common. *)
Definition disjoint (a b : extent) : Prop := forall l, ~ (fst a <= l < fst a + snd a /\ fst b <= l < fst b + snd b).

(** A zoned device: each zone is empty, open with a write pointer, or full.  It
    rejects ([None]) calls that do not follow the zone protocol. *)
Inductive dz := DEmpty | DOpen (wp : Z) | DFull.

Definition dset (d : Z -> dz) (z : Z) (x : dz) : Z -> dz := fun j => if j =? z then x else d j.

Definition dev_step (v : vdev) (d : Z -> dz) (o : vop) : option (Z -> dz) :=
  match o with
  | VOpen z => match d z with
               | DEmpty => if (0 <=? z) && (z <? v_zones v) then Some (dset d z (DOpen (fst (v_lim v z)))) else None
               | _ => None
               end
  | VWrite z lba len =>
      match d z with
      | DOpen wp => if (0 <? len) && (wp =? lba) && (lba + len <=? snd (v_lim v z)) then Some (dset d z (DOpen (lba + len))) else None
      | _ => None
      end
  | VFlush z gap =>
      match d z with
      | DOpen wp => if (0 <=? gap) && (wp + gap <=? snd (v_lim v z)) && ((wp + gap - fst (v_lim v z)) mod v_stripe v =? 0)
                    then Some (dset d z (DOpen (wp + gap))) else None
      | _ => None
      end
  | VFinish z => match d z with DOpen _ => Some (dset d z DFull) | _ => None end
  | VErase z => match d z with DFull => Some (dset d z DEmpty) | _ => None end
  | VReopen z alloc =>
      match d z with DOpen wp => if wp =? fst (v_lim v z) + alloc then Some d else None | _ => None end
  end.

Fixpoint dev_run (v : vdev) (d : Z -> dz) (l : list vop) : option (Z -> dz) :=
  match l with
  | [] => Some d
  | o :: r => let* d := dev_step v d o in dev_run v d r
  end.

Definition sum_len (l : list extent) : Z := fold_right (fun e a => snd e + a) 0 l.
