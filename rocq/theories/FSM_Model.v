(** Model of the free-space map and of the cluster that owns it
    (bfffs-core/src/cluster.rs).

    Conventions.  Zone numbers, LBAs, block counts and transaction numbers are
    unbounded integers; the [as u32] casts and [u32::try_from] conversions
    are explicit.  A panic (failed assertion, failed [unwrap], index out of
    bounds) is [None].  A subtraction of unsigned values that would go below
    zero is a panic, as it is in a debug build. *)
From Verif Require Import Common ZMap.

Definition u32 (x : Z) : Z := x mod 2^32.
Definition U32MAX : Z := 2^32 - 1.

(** types.rs 314: [TXG_MAX = TxgT(u32::MAX - 1)] *)
Definition TXG_MAX : Z := 2^32 - 2.

(** label.rs 47 *)
Definition ZPL : Z := 255.

(** label.rs 50-52: [spacemap_space], [div_ceil]. *)
Definition spacemap_space (nzones : Z) : Z := (nzones + ZPL - 1) / ZPL.

Definition obind {A B} (x : option A) (k : A -> option B) : option B :=
  match x with Some a => k a | None => None end.
Notation "'let*' p ':=' x 'in' k" := (obind x (fun p => k)) (at level 200, p pattern, right associativity).
Definition oassert {B} (b : bool) (k : option B) : option B := if b then k else None.

(** cluster.rs 79-98: [struct Zone], with [txgs = ts..te]. *)
Record zone := mkzone { freed : Z; total : Z; ts : Z; te : Z }.

(** cluster.rs 100-106: [Default for Zone] *)
Definition zdefault : zone := mkzone 0 0 0 0.

(** cluster.rs 125-133: [struct OpenZone] *)
Record ozone := mkoz { ostart : Z; oalloc : Z }.

(** cluster.rs 147-175: [struct FreeSpaceMap].  [empty_zones] is a
    [BTreeSet], [open_zones] a [BTreeMap]; the dirty bit set is a predicate on
    spacemap block numbers. *)
Record fsm := mkfsm {
  dirty : Z -> bool;
  empties : list (Z * unit);
  opens : list (Z * ozone);
  total_zones : Z;
  zones : list zone
}.

Definition set_dirty d f := mkfsm d (empties f) (opens f) (total_zones f) (zones f).
Definition set_empties e f := mkfsm (dirty f) e (opens f) (total_zones f) (zones f).
Definition set_opens o f := mkfsm (dirty f) (empties f) o (total_zones f) (zones f).
Definition set_zones z f := mkfsm (dirty f) (empties f) (opens f) (total_zones f) z.

(** The end transaction of zone [z], for a zone known to be in the vector. *)
Definition te_of (f : fsm) (z : Z) : Z := match lget (zones f) z with Some x => te x | None => 0 end.

(** cluster.rs 375-379 *)
Definition is_closed (f : fsm) (z : Z) : bool :=
  (z <? zlen (zones f)) && negb (zm_mem z (empties f)) && negb (zm_mem z (opens f)).

(** cluster.rs 382-386 *)
Definition is_dead (f : fsm) (z : Z) : bool :=
  (z <? zlen (zones f)) && zm_mem z (empties f) && (te_of f z >? 0).

(** cluster.rs 389-393 *)
Definition is_empty (f : fsm) (z : Z) : bool :=
  (z >=? zlen (zones f)) || zm_mem z (empties f) && (te_of f z =? 0).

(** cluster.rs 396-398 *)
Definition is_open (f : fsm) (z : Z) : bool := zm_mem z (opens f).

(** cluster.rs 177-185: [allocated] *)
Definition allocated (f : fsm) (z : Z) : option Z :=
  match zm_get z (opens f) with
  | Some oz => Some (oalloc oz)
  | None => if zm_mem z (empties f) then Some 0
            else let* x := lget (zones f) z in Some (total x)
  end.

(** Sum of a partial function over a list of zones. *)
Fixpoint osum (g : Z -> option Z) (l : list Z) : option Z :=
  match l with
  | [] => Some 0
  | z :: r => let* a := g z in let* b := osum g r in Some (a + b)
  end.

(** cluster.rs 189-193: [allocated_total] *)
Definition allocated_total (f : fsm) : option Z := osum (allocated f) (zrange 0 (zlen (zones f))).

(** cluster.rs 204-211: [available] *)
Definition available (f : fsm) (z : Z) : option Z :=
  match zm_get z (opens f) with
  | Some oz => let* x := lget (zones f) z in
               oassert (oalloc oz <=? total x) (Some (total x - oalloc oz))
  | None => Some 0
  end.

(** cluster.rs 215-217: [clear_dirty_zones] *)
Definition clear_dirty (f : fsm) : fsm := set_dirty (fun _ => false) f.

(** cluster.rs 282-290: [dirty_zone].  [FixedBitSet::insert] panics beyond its
    capacity, which is the number of spacemap blocks. *)
Definition dirty_zone (z : Z) (f : fsm) : option fsm :=
  oassert (z / ZPL <? spacemap_space (total_zones f))
          (Some (set_dirty (fun b => (b =? z / ZPL) || dirty f b) f)).

(** cluster.rs 294-308: [kill_zone] *)
Definition kill_zone (z : Z) (f : fsm) : option (fsm * Z) :=
  let* f := dirty_zone z f in
  oassert (negb (is_open f z))
  (oassert (z <? zlen (zones f))
  (let* a := allocated f z in
   let f := set_empties (zm_set z tt (empties f)) f in
   let* x := lget (zones f) z in
   Some (set_zones (lset (zones f) z (mkzone (freed x) (total x) 0 1)) f, a))).

(** cluster.rs 311-322: [find_empty] *)
Definition find_empty (f : fsm) : option Z :=
  match find (fun p => te_of f (fst p) =? 0) (empties f) with
  | Some p => Some (fst p)
  | None => if zlen (zones f) <? total_zones f then Some (zlen (zones f)) else None
  end.

(** cluster.rs 327-335: [finish_zone] *)
Definition finish_zone (z txg : Z) (f : fsm) : option (fsm * Z) :=
  let* f := dirty_zone z f in
  let* av := available f z in
  oassert (zm_mem z (opens f))
  (let f := set_opens (zm_del z (opens f)) f in
   let* x := lget (zones f) z in
   Some (set_zones (lset (zones f) z (mkzone (freed x + u32 av) (total x) (ts x) (txg + 1))) f, av)).

(** cluster.rs 338-352: [free] *)
Definition fsm_free (z len : Z) (f : fsm) : option fsm :=
  let* f := dirty_zone z f in
  oassert (negb (is_empty f z))
  (let* x := lget (zones f) z in
   oassert (len <? 2^32)
   (let x' := mkzone (freed x + len) (total x) (ts x) (te x) in
    oassert (freed x' <=? total x')
    (oassert (match zm_get z (opens f) with Some oz => freed x' <=? oalloc oz | None => true end)
     (Some (set_zones (lset (zones f) z x') f))))).

(** cluster.rs 355-365: [in_use] *)
Definition in_use (f : fsm) (z : Z) : option Z :=
  if is_dead f z || is_empty f z then Some 0 else
  match zm_get z (opens f) with
  | Some oz => let* x := lget (zones f) z in
               oassert (freed x <=? oalloc oz) (Some (oalloc oz - freed x))
  | None => let* x := lget (zones f) z in
            oassert (freed x <=? total x) (Some (total x - freed x))
  end.

(** cluster.rs 368-372: [in_use_total] *)
Definition in_use_total (f : fsm) : option Z := osum (in_use f) (zrange 0 (zlen (zones f))).

(** cluster.rs 427-440: [new] *)
Definition fsm_new (nz : Z) : fsm :=
  mkfsm (fun b => (0 <=? b) && (b <? spacemap_space nz)) [] [] nz [].

Definition add_empties (l : list Z) (e : list (Z * unit)) : list (Z * unit) :=
  fold_left (fun e z => zm_set z tt e) l e.

(** The result of [open_zone]. *)
Inductive oz_res := OzOk (a : option (Z * Z)) | OzNoSpace.

(** cluster.rs 462-492: [open_zone] *)
Definition open_zone (z start end_ lbas txg : Z) (f : fsm) : option (fsm * oz_res) :=
  oassert (txg <=? TXG_MAX)
  (let* f := dirty_zone z f in
   let space := end_ - start in
   oassert (is_empty f z)
   (if space <? lbas then Some (f, OzNoSpace) else
    let missing := zrange (zlen (zones f)) z in
    oassert (forallb (fun j => negb (zm_mem j (empties f))) missing)
    (let f := set_empties (add_empties missing (empties f)) f in
     let f := set_zones (zones f ++ repeat zdefault (Z.to_nat (z + 1 - zlen (zones f)))) f in
     let* x := lget (zones f) z in
     let f := set_zones (lset (zones f) z (mkzone 0 (u32 space) txg TXG_MAX)) f in
     let f := set_empties (zm_del z (empties f)) f in
     oassert (negb (zm_mem z (opens f)))
     (let f := set_opens (zm_set z (mkoz start (u32 lbas)) (opens f)) f in
      Some (f, OzOk (if lbas >? 0 then Some (z, start) else None)))))).

(** cluster.rs 517-548: [reap].  Returns the zones to erase. *)
Definition last_nonempty (f : fsm) : Z :=
  fold_left (fun a z => if is_empty f z then a else z + 1) (zrange 0 (zlen (zones f))) 0.

Definition reap_one (f : fsm) (z : Z) : fsm :=
  match lget (zones f) z with
  | Some x => set_dirty (fun b => (b =? z / ZPL) || dirty f b)
                (set_zones (lset (zones f) z (mkzone (freed x) (total x) (ts x) 0)) f)
  | None => f
  end.

Definition reap (f : fsm) : fsm * list Z :=
  let dead := filter (is_dead f) (map fst (empties f)) in
  let f1 := fold_left reap_one dead f in
  let highest := fold_left Z.max dead 0 in
  if highest + 1 =? zlen (zones f1) then
    let fe := last_nonempty f1 in
    (set_empties (filter (fun p => fst p <? fe) (empties f1))
       (set_zones (ztake fe (zones f1)) f1), dead)
  else (f1, dead).

(** cluster.rs 746-769: [struct ZoneOnDisk] *)
Record zod := mkzod { zo_alloc : Z; zo_freed : Z; zo_ts : Z; zo_te : Z }.

(** cluster.rs 559-577: the record of one zone in [serialize]. *)
Definition zod_of (f : fsm) (z : Z) : option zod :=
  let off := is_dead f z || is_empty f z in
  let* x := (if is_empty f z then Some zdefault else lget (zones f) z) in
  Some (mkzod (if off then 0 else match zm_get z (opens f) with Some oz => oalloc oz | None => U32MAX end)
              (if off then 0 else freed x)
              (if is_empty f z then 0 else ts x)
              (if is_empty f z then 0 else te x)).

Fixpoint omap {A B} (g : A -> option B) (l : list A) : option (list B) :=
  match l with
  | [] => Some []
  | z :: r => let* a := g z in let* b := omap g r in Some (a :: b)
  end.

(** cluster.rs 552-588: the contents of spacemap block [b] in [serialize]. *)
Definition block_of (f : fsm) (b : Z) : option (list zod) :=
  omap (zod_of f) (zrange (b * ZPL) (Z.min ((b + 1) * ZPL) (total_zones f))).

(** cluster.rs 597-622: [try_allocate].  The search stops at the first open
    zone, in zone order, with enough space; those before it are reported as
    nearly full. *)
Fixpoint find_open (zs : list zone) (space : Z) (m : list (Z * ozone)) : option (option Z * list Z) :=
  match m with
  | [] => Some (None, [])
  | (z, oz) :: r =>
      let* x := lget zs z in
      oassert (oalloc oz <=? total x)
      (if total x - oalloc oz <? space then
         let* q := find_open zs space r in Some (fst q, z :: snd q)
       else Some (Some z, []))
  end.

Definition try_allocate (space : Z) (f : fsm) : option (fsm * option (Z * Z) * list Z) :=
  oassert (match opens f with [] => true | _ => space <? 2^32 end)
  (let* q := find_open (zones f) space (opens f) in
   match fst q with
   | None => Some (f, None, snd q)
   | Some z =>
       let* oz := zm_get z (opens f) in
       let f' := set_opens (zm_set z (mkoz (ostart oz) (oalloc oz + u32 space)) (opens f)) f in
       let* f' := dirty_zone z f' in
       Some (f', Some (z, ostart oz + oalloc oz), snd q)
   end).

(** cluster.rs 625-635: [waste_space] *)
Definition waste_space (z space : Z) (f : fsm) : option fsm :=
  let* f := dirty_zone z f in
  let* oz := zm_get z (opens f) in
  let oz' := mkoz (ostart oz) (oalloc oz + u32 space) in
  let f := set_opens (zm_set z oz' (opens f)) f in
  let* x := lget (zones f) z in
  let x' := mkzone (freed x + u32 space) (total x) (ts x) (te x) in
  oassert (oalloc oz' <=? total x') (Some (set_zones (lset (zones f) z x') f)).

(** What the cluster needs to know of the RAID vdev below it: the number of
    zones, their limits, which zone an LBA belongs to, and the number of LBAs
    in a stripe.  [VdevRaid::flush_zone] (vdev_raid.rs 2135-2158) pads the zone
    up to a whole stripe; a mirror or a single disk has [stripe = 1]. *)
Record vdev := mkvdev {
  v_zones : Z;
  v_lim : Z -> Z * Z;
  v_zone_of : Z -> option Z;
  v_stripe : Z
}.

Definition gap_of (v : vdev) (alloc : Z) : Z := (- alloc) mod v_stripe v.

(** Calls the cluster makes on the vdev. *)
Inductive vop :=
| VOpen (z : Z)
| VWrite (z lba len : Z)
| VFlush (z gap : Z)
| VFinish (z : Z)
| VErase (z : Z)
| VReopen (z alloc : Z).

(** cluster.rs 862-873: [struct Cluster], with the two on-disk space maps:
    [sm idx block] is the last contents written to that block.  The atomic
    counter wraps at 2^64 in the code and does not here. *)
Record cluster := mkcl {
  fs : fsm;
  alloc_space : Z;
  sm : Z -> Z -> option (list zod)
}.

Definition set_fs f c := mkcl f (alloc_space c) (sm c).

Section Cluster.
Context (v : vdev).

(** cluster.rs 891-904: [close_zones] *)
Fixpoint close_zones (zs : list Z) (txg : Z) (f : fsm) (a : Z) : option (fsm * Z * list vop) :=
  match zs with
  | [] => Some (f, a, [])
  | z :: r =>
      let* (f, n) := finish_zone z txg f in
      let* (f, a, o) := close_zones r txg f (a + n) in
      Some (f, a, VFinish z :: o)
  end.

(** cluster.rs 907-912: [create], with 1025-1029 [new]. *)
Definition cluster_create : cluster := mkcl (fsm_new (v_zones v)) 0 (fun _ _ => None).

(** cluster.rs 950-985: the open zones are flushed one after the other. *)
Fixpoint waste_all (zs : list Z) (f : fsm) (a : Z) : option (fsm * Z * list vop) :=
  match zs with
  | [] => Some (f, a, [])
  | z :: r =>
      let* oz := zm_get z (opens f) in
      let gap := gap_of v (oalloc oz) in
      let* f := waste_space z gap f in
      let* (f, a, o) := waste_all r f (a + gap) in
      Some (f, a, VFlush z gap :: o)
  end.

Fixpoint write_blocks (f : fsm) (idx : Z) (bs : list Z) (m : Z -> Z -> option (list zod)) :
    option (Z -> Z -> option (list zod)) :=
  match bs with
  | [] => Some m
  | b :: r =>
      let* x := block_of f b in
      write_blocks f idx r (fun i j => if (i =? idx) && (j =? b) then Some x else m i j)
  end.

(** cluster.rs 950-985: [flush] *)
Definition flush (idx : Z) (c : cluster) : option (cluster * list vop) :=
  let* (f, a, o) := waste_all (map fst (opens (fs c))) (fs c) (alloc_space c) in
  let* m := write_blocks f idx (filter (dirty f) (zrange 0 (spacemap_space (total_zones f)))) (sm c) in
  Some (mkcl (clear_dirty f) a m, o).

(** cluster.rs 988-998: [advance_transaction] *)
Definition advance (c : cluster) : cluster * list vop :=
  let (f, l) := reap (fs c) in
  (set_fs f c, map VErase l).

(** cluster.rs 1005-1022 and 922-926: [free] and [kill_zone] *)
Definition free (lba len : Z) (c : cluster) : option cluster :=
  let* z := v_zone_of v lba in
  let* f := fsm_free z len (fs c) in
  let* u := (if is_closed f z then in_use f z else Some 1) in
  if u =? 0 then
    let* (f, a) := kill_zone z f in
    Some (mkcl f (alloc_space c - a) (sm c))
  else Some (set_fs f c).

(** cluster.rs 1232-1234: [used] *)
Definition used (c : cluster) : option Z := in_use_total (fs c).

Inductive wres := WOk (lba : Z) | WNoSpace.

(** cluster.rs 1247-1298: [write]; [space] is the length in LBAs. *)
Definition write (space txg : Z) (c : cluster) : option (cluster * wres * list vop) :=
  let* (f, r, nf) := try_allocate space (fs c) in
  let* (f, a, o1) := close_zones nf txg f (alloc_space c) in
  match r with
  | Some (z, lba) => Some (mkcl f (a + space) (sm c), WOk lba, o1 ++ [VWrite z lba space])
  | None =>
      match find_empty f with
      | None => Some (mkcl f a (sm c), WNoSpace, o1)
      | Some z =>
          let* (f, e) := open_zone z (fst (v_lim v z)) (snd (v_lim v z)) space txg f in
          match e with
          | OzNoSpace => Some (mkcl f a (sm c), WNoSpace, o1)
          | OzOk None => None (* "Tried a 0-length write?" *)
          | OzOk (Some (_, lba)) =>
              Some (mkcl f (a + space) (sm c), WOk lba, o1 ++ [VOpen z; VWrite z lba space])
          end
      end
  end.

(** cluster.rs 248-272: one record in [deserialize]. *)
Definition deser_one (z : Z) (d : zod) (f : fsm) : option (fsm * list vop) :=
  if zo_te d >? 0 then
    let* (f, _) := open_zone z (fst (v_lim v z)) (snd (v_lim v z)) 0 (zo_ts d) f in
    let* (f, o) :=
      (if zo_alloc d =? U32MAX then
         let* (f, _) := finish_zone z (zo_te d - 1) f in Some (f, [])
       else if zo_alloc d >? 0 then
         let* (f, r, _) := try_allocate (zo_alloc d) f in
         let* (z', _) := r in
         oassert (z' =? z) (Some (f, [VReopen z (zo_alloc d)]))
       else
         let* (f, _) := finish_zone z (zo_te d - 1) f in
         let* (f, _) := kill_zone z f in Some (f, [])) in
    let* x := lget (zones f) z in
    Some (set_zones (lset (zones f) z (mkzone (zo_freed d) (total x) (zo_ts d) (zo_te d))) f, o)
  else Some (f, []).

Fixpoint deser_list (z : Z) (ds : list zod) (f : fsm) : option (fsm * list vop) :=
  match ds with
  | [] => Some (f, [])
  | d :: r =>
      let* (f, o) := deser_one z d f in
      let* (f, o') := deser_list (z + 1) r f in
      Some (f, o ++ o')
  end.

(** cluster.rs 238-280 and 495-507: [deserialize] and [open]; space map 0 is
    the one that is read.  The checksum and the byte encoding of each block
    are not modelled; a block that was never written is an error. *)
Definition deserialize (c : cluster) : option (fsm * list vop) :=
  let* bs := omap (sm c 0) (zrange 0 (spacemap_space (v_zones v))) in
  let ds := concat bs in
  oassert (zlen ds =? v_zones v)
  (let* (f, o) := deser_list 0 ds (fsm_new (v_zones v)) in
   Some (clear_dirty f, o)).

(** cluster.rs 1036-1040 and 1025-1029: [Cluster::open] and [new]. *)
Definition reopen (c : cluster) : option (cluster * list vop) :=
  let* (f, o) := deserialize c in
  let* a := allocated_total f in
  Some (mkcl f a (sm c), o).

End Cluster.
