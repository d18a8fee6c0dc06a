(** Model of the redundancy layers above single disks: mirrors
    (bfffs-core/src/mirror.rs), the children of RAID devices
    (raid/vdev_raid.rs, raid/null_raid.rs) and the health of a pool (pool.rs,
    vdev.rs).

    Disks and mirrors are identified by their position, which stands for the
    UUID.  Counts are unbounded [Z] except where the code casts to u8; a panic is
    [None]. *)
From Verif Require Import Common.

(** ** vdev.rs *)

(** vdev.rs:16-24, [FaultedReason]. *)
Inductive reason := User | InsufficientRedundancy | Removed.

(** vdev.rs:26-38, [Health]. *)
Inductive health := Online | Degraded (n : Z) | Faulted (r : reason).

(** The derived [Ord] (vdev.rs:16, 31): declaration order, then the fields. *)
Definition reason_rank (r : reason) : Z :=
  match r with User => 0 | InsufficientRedundancy => 1 | Removed => 2 end.
Definition health_leb (a b : health) : bool :=
  match a, b with
  | Online, _ => true
  | Degraded _, Online => false
  | Degraded x, Degraded y => x <=? y
  | Degraded _, Faulted _ => true
  | Faulted _, Online | Faulted _, Degraded _ => false
  | Faulted r, Faulted s => reason_rank r <=? reason_rank s
  end.

(** vdev.rs:51-53. *)
Definition is_faulted (h : health) : bool := match h with Faulted _ => true | _ => false end.

(** [as u8] *)
Definition u8 (x : Z) : Z := x mod 256.

(** ** mirror.rs *)

(** mirror.rs:136-143, [Child]: the state of one disk of a mirror. *)
Inductive leaf := LPresent | LMissing | LRebuilding | LFaulted.

Definition leaf_present (l : leaf) : bool := match l with LPresent => true | _ => false end.
Definition leaf_rebuilding (l : leaf) : bool := match l with LRebuilding => true | _ => false end.

(** mirror.rs:191-199, [Child::fault]. *)
Definition leaf_fault (l : leaf) : leaf :=
  match l with LPresent | LFaulted | LRebuilding => LFaulted | LMissing => LMissing end.

(** mirror.rs:218-226, [Child::rebuild]. *)
Definition leaf_rebuild (l : leaf) : leaf :=
  match l with LPresent => LPresent | LFaulted | LRebuilding => LRebuilding | LMissing => LMissing end.

(** mirror.rs:232-240 and 758-764, [Child::restore] as called by
    [Mirror::restore], for rebuilding children only. *)
Definition leaf_restore (l : leaf) : leaf := if leaf_rebuilding l then LPresent else l.

(** mirror.rs:242-257 and 768-777: [Child::status], with the default for missing
    disks.  A present [VdevBlock] always reports [Online] (vdev_block.rs:1061). *)
Definition leaf_health (l : leaf) : health :=
  match l with
  | LPresent => Online
  | LFaulted => Faulted User
  | LRebuilding => Degraded 1
  | LMissing => Faulted Removed
  end.

Notation mirror := (list leaf).

Definition health_eqb (a b : health) : bool := health_leb a b && health_leb b a.

(** mirror.rs:767-798, [Mirror::status], the health; the count of sick children
    is cast to u8. *)
Definition mirror_health (m : mirror) : health :=
  let sick := count (fun l => negb (health_eqb (leaf_health l) Online)) m in
  if sick =? zlen m then Faulted InsufficientRedundancy
  else if u8 sick =? 0 then Online else Degraded (u8 sick).

(** mirror.rs:416-424, [Mirror::fault]; [None] is ENOENT. *)
Definition mirror_fault (j : nat) (m : mirror) : option mirror :=
  match nth_error m j with
  | Some l => Some (list_upd m j (leaf_fault l))
  | None => None
  end.

(** mirror.rs:350-369, [Mirror::attach]: a matching new disk; refused ([None]) while
    another disk is rebuilding. *)
Definition mirror_attach (m : mirror) : option mirror :=
  if existsb leaf_rebuilding m then None else Some (m ++ [LRebuilding]).

(** mirror.rs:758-764, [Mirror::restore]. *)
Definition mirror_restore (m : mirror) : mirror := map leaf_restore m.

(** mirror.rs:742-750, [Mirror::rebuild]. *)
Definition mirror_rebuild (j : nat) (m : mirror) : option mirror :=
  match nth_error m j with
  | Some l => Some (list_upd m j (leaf_rebuild l))
  | None => None
  end.

Section Read.
Context {D E : Type} (enxio : E).

(** Outcome of reading one disk. *)
Notation io := (nat -> D + E).

(** mirror.rs:597-622, [Mirror::read_something]: which disk is read first, and the
    other present disks.  [idx0] is the value of the wrapping read counter; the
    [find] over [idx..idx+nchildren] is spelled out. *)
Definition read_order (m : mirror) (idx0 : Z) : option (nat * list nat) :=
  let n := length m in
  let idx := Z.to_nat (idx0 mod Z.of_nat n) in
  match find (fun i => match nth_error m i with Some l => leaf_present l | None => false end)
             (map (fun i => Nat.modulo i n) (seq idx n)) with
  | Some i => Some (i, filter (fun j => negb (Nat.eqb j i) &&
                        match nth_error m j with Some l => leaf_present l | None => false end) (seq 0 n))
  | None => None
  end.

(** mirror.rs:903-930, [ReadAt::poll]: on an error the last of the remaining disks
    is tried.  Also returns the disks read, in order. *)
Fixpoint read_retry (disk : io) (fuel : nat) (cur : nat) (rest : list nat) : (D + E) * list nat :=
  match disk cur with
  | inl d => (inl d, [cur])
  | inr e =>
    match rest, fuel with
    | [], _ => (inr e, [cur])
    | _, O => (inr e, [cur])
    | r0 :: r, S fu =>
      let c := last rest r0 in
      let '(res, tried) := read_retry disk fu c (removelast rest) in (res, cur :: tried)
    end
  end.

(** mirror.rs:545-555 with 895-930, [Mirror::read_at]. *)
Definition mirror_read (m : mirror) (idx0 : Z) (disk : io) : (D + E) * list nat :=
  match read_order m idx0 with
  | None => (inr enxio, [])
  | Some (i, rest) => read_retry disk (length rest) i rest
  end.

End Read.

(** mirror.rs:498-533, [Mirror::open]: [label] lists the mirror's disks as recorded
    in the label of a disk with the highest transaction number; [disks] are the
    disks found, with the transaction number of their labels. *)
Definition mirror_open (label : list Z) (disks : list (Z * Z)) : mirror :=
  let highest := fold_left Z.max (map snd disks) 0 in
  map (fun u => match find (fun d => fst d =? u) disks with
                | Some d => if snd d =? highest then LPresent else LRebuilding
                | None => LMissing
                end) label.

(** ** raid/vdev_raid.rs *)

(** vdev_raid.rs:183-188, [Child]. *)
Inductive rchild := RPresent (m : mirror) | RMissing | RFaulted (m : mirror).

Definition rpresent (c : rchild) : bool := match c with RPresent _ => true | _ => false end.

(** vdev_raid.rs:361-373 and 2336-2343: a child's status: health and number of
    leaves, with the default for missing mirrors. *)
Definition rchild_status (c : rchild) : health * Z :=
  match c with
  | RPresent m => (mirror_health m, zlen m)
  | RFaulted m => (Faulted User, zlen m)
  | RMissing => (Faulted Removed, 0)
  end.

(** vdev_raid.rs:503-529, [VdevRaid]: the children, the number of disks whose loss
    is tolerated and the cached number of faulted children. *)
Record raid := Raid { r_children : list rchild; r_f : Z; r_faulted : Z }.

(** vdev_raid.rs:662-676, the part of [VdevRaid::new] that counts. *)
Definition raid_new (cs : list rchild) (f : Z) : raid :=
  Raid cs f (count (fun c => negb (rpresent c)) cs).

(** vdev_raid.rs:713-729, [VdevRaid::open]: [ms] gives, for every mirror listed in
    the label, the mirror as opened, if any of its disks was found. *)
Definition raid_open (ms : list (option mirror)) (f : Z) : raid :=
  raid_new (map (fun o => match o with
                          | Some m => if is_faulted (mirror_health m) then RFaulted m else RPresent m
                          | None => RMissing
                          end) ms) f.

(** vdev_raid.rs:271-285, [Child::fault]. *)
Definition rchild_fault (c : rchild) : rchild * Z :=
  match c with
  | RPresent m => (RFaulted m, 1)
  | RFaulted m => (RFaulted m, 0)
  | RMissing => (RMissing, 0)
  end.

(** vdev_raid.rs:2075-2105, [VdevRaid::fault] of a mirror. *)
Definition raid_fault_mirror (i : nat) (r : raid) : option raid :=
  match nth_error (r_children r) i with
  | Some c => let '(c', k) := rchild_fault c in
              Some (Raid (list_upd (r_children r) i c') (r_f r) (r_faulted r + k))
  | None => None
  end.

(** vdev_raid.rs:2075-2105, [VdevRaid::fault] of disk [j] of mirror [i]; [None] is
    ENOENT, also for the disks of a mirror that is itself faulted. *)
Definition raid_fault_leaf (i j : nat) (r : raid) : option raid :=
  match nth_error (r_children r) i with
  | Some (RPresent m) =>
    match mirror_fault j m with
    | Some m' =>
      if is_faulted (mirror_health m') then
        let '(c', k) := rchild_fault (RPresent m') in
        Some (Raid (list_upd (r_children r) i c') (r_f r) (r_faulted r + k))
      else Some (Raid (list_upd (r_children r) i (RPresent m')) (r_f r) (r_faulted r))
    | None => None
    end
  | _ => None
  end.

(** vdev_raid.rs:2048-2060, [VdevRaid::attach]. *)
Definition raid_attach (i : nat) (r : raid) : option raid :=
  match nth_error (r_children r) i with
  | Some (RPresent m) =>
    match mirror_attach m with
    | Some m' => Some (Raid (list_upd (r_children r) i (RPresent m')) (r_f r) (r_faulted r))
    | None => None
    end
  | _ => None
  end.

(** vdev_raid.rs:350-360, [Child::restore]. *)
Definition rchild_restore (c : rchild) : rchild :=
  match c with
  | RPresent m => RPresent (mirror_restore m)
  | RFaulted m => RPresent m
  | RMissing => RMissing
  end.

(** vdev_raid.rs:2321-2328, [VdevRaid::restore]: the cached count is not touched. *)
Definition raid_restore (i : nat) (r : raid) : option raid :=
  match nth_error (r_children r) i with
  | Some c => Some (Raid (list_upd (r_children r) i (rchild_restore c)) (r_f r) (r_faulted r))
  | None => None
  end.

(** vdev_raid.rs:2345-2360: how many disks a child is short of. *)
Definition child_lack (c : rchild) : Z :=
  let '(h, n) := rchild_status c in
  match h with
  | Online => 0
  | Degraded d => d
  | Faulted _ => if n =? 0 then 1 else u8 n
  end.

(** The [sum] of u8 at vdev_raid.rs:2360; [None] is the overflow panic of a debug
    build. *)
Fixpoint u8_sum (l : list Z) : option Z :=
  match l with
  | [] => Some 0
  | x :: r => match u8_sum r with
              | Some s => if x + s <? 256 then Some (x + s) else None
              | None => None
              end
  end.

(** vdev_raid.rs:618-624, [faulted_children] with its [debug_assert]. *)
Definition raid_faulted_children (r : raid) : option Z :=
  if r_faulted r =? count (fun c => negb (rpresent c)) (r_children r) then Some (r_faulted r) else None.

(** vdev_raid.rs:2330-2376, [VdevRaid::status], the health. *)
Definition raid_health (r : raid) : option health :=
  match u8_sum (map child_lack (r_children r)), raid_faulted_children r with
  | Some d, Some fc => Some (if fc >? r_f r then Faulted InsufficientRedundancy
                             else if d =? 0 then Online else Degraded d)
  | _, _ => None
  end.

(** vdev_raid.rs:383-385 and 2466-2475, [Child::write_label] and
    [VdevRaid::write_label]: which disks get the new label; [None] is the panic of
    [unwrap].  Mirrors write to their present disks only (mirror.rs:262-268,
    823-845). *)
Definition raid_write_label (r : raid) : option (list (list bool)) :=
  fold_right (fun c acc => match c, acc with
                           | RPresent m, Some l => Some (map leaf_present m :: l)
                           | _, _ => None
                           end) (Some []) (r_children r).

(** vdev_raid.rs:315-317, 454-485 and 2258-2272, [VdevRaid::read_spacemap]: the
    children are tried in order until one succeeds; [child i] is what reading
    mirror [i] gives; [None] is the panic of [unwrap] for one that is not present. *)
Fixpoint read_spacemap_from {D E} (child : nat -> D + E) (i : nat) (cs : list rchild) (dflt : E)
  : option (D + E) :=
  match cs with
  | [] => Some (inr dflt)
  | RPresent _ :: r => match child i with
                       | inl d => Some (inl d)
                       | inr e => read_spacemap_from child (S i) r e
                       end
  | _ :: _ => None
  end.

Definition raid_read_spacemap {D E} (enxio : E) (child : nat -> D + E) (r : raid) : option (D + E) :=
  read_spacemap_from child 0 (r_children r) enxio.

(** ** raid/null_raid.rs and pool.rs *)

(** null_raid.rs:189-199: the health of the only mirror. *)
Definition nullraid_health (m : mirror) : health := mirror_health m.

(** pool.rs:468-484, [Pool::status], the health: the [max] of the clusters'; [None]
    for no clusters at all.  ([Iterator::max] returns the last of equal maxima,
    which are equal here.) *)
Definition pool_health (cs : list health) : option health :=
  match cs with
  | [] => None
  | c :: r => Some (fold_left (fun a b => if health_leb a b then b else a) r c)
  end.
