(** Model of all the disks of a mirror over the life of a pool: disks are faulted and attached while the pool is in use, and every disk that is
    attached is rebuilt by a task of its own (bfffs-core/src/ddml/ddml.rs [attach], [fault], [MirrorRepairTask]; bfffs-core/src/mirror.rs).
    The cluster is the model of FSM_Model.v, the steps of a repair are those of Repair_Model.v.

    Simplifications: as in Repair_Model.v every operation and every step is atomic, and no I/O error occurs.  The pool is one mirror without RAID
    (raid/null_raid.rs), so that the LBAs of the cluster are those of the disks. *)
From Verif Require Import Common ZMap FSM_Model FSM_Spec Repair_Model Vdev_Model.

(** mirror.rs:136-143, a child.  [m_has l] says that block [l] of the disk holds what the pool last wrote there; [m_txg] is the transaction of the
    disk's label. *)
Record mdisk := MDisk { m_leaf : leaf; m_has : Z -> bool; m_txg : Z }.

(** ddml.rs:66-71,143-178, a repair task: spawned but not yet polled; in [repair_closed_zones]; about to lock the pool for [finalize]; returned. *)
Inductive tstate := Pending (txg : Z) | Running (t : task) | Closing (t : task) | Over.

Record mworld := MWorld { mw_c : cluster; mw_live : list extent; mw_disks : list mdisk; mw_tasks : list tstate }.

Section Replace.
Context (v : vdev).

(** mirror.rs:187-285: writes go to the present disks only; after an erasure there is nothing on any of them. *)
Definition hear (d : mdisk) (o : vop) : mdisk :=
  match o with
  | VWrite z lba len =>
      let inside l := (lba <=? l) && (l <? lba + len) in
      MDisk (m_leaf d) (fun l => if inside l then leaf_present (m_leaf d) else m_has d l) (m_txg d)
  | VErase z => MDisk (m_leaf d) (fun l => m_has d l && negb ((fst (v_lim v z) <=? l) && (l <? snd (v_lim v z)))) (m_txg d)
  | _ => d
  end.

(** mirror.rs:671-735 [Mirror::repair_zone] and 825-846 [write_label] with [repairing]: the zone is read from present disks, a different one for each
    buffer, and written to all the disks that are being rebuilt; then their labels are written.  What is copied counts as right only if all the present
    disks have it right.  [None] is the panic of [zone_limits] (and of the modulo) without any present disk. *)
Definition source_has (ds : list mdisk) (l : Z) : bool := forallb (fun d => negb (leaf_present (m_leaf d)) || m_has d l) ds.
Definition copy_to (src : Z -> bool) (w : work) (d : mdisk) : mdisk :=
  if leaf_rebuilding (m_leaf d) then
    MDisk (m_leaf d)
      (match w_copy w with
       | Some (z, lbas) =>
           let s := fst (v_lim v z) in
           let e := match lbas with Some n => s + n | None => snd (v_lim v z) end in
           fun l => if (s <=? l) && (l <? e) then src l else m_has d l
       | None => m_has d
       end)
      (match w_label w with Some x => x | None => m_txg d end)
  else d.
Definition mirror_work (ds : list mdisk) (w : work) : option (list mdisk) :=
  match w_copy w with
  | Some _ => oassert (existsb (fun d => leaf_present (m_leaf d)) ds) (Some (map (copy_to (source_has ds) w) ds))
  | None => Some (map (copy_to (source_has ds) w) ds)
  end.

(** ddml.rs:122-140 [finalize] up to the call of [restore]; the pool is locked all the time.  [fuel] bounds the number of steps. *)
Fixpoint mfinalize (fuel : nat) (f : fsm) (ds : list mdisk) (t : task) : option (list mdisk) :=
  match fuel with
  | O => None
  | S n =>
    let* (t', more, wk) := repair_step f t true in
    let* ds' := mirror_work ds wk in
    if more then mfinalize n f ds' t' else Some ds'
  end.

Definition set_leaf (d : mdisk) (l : leaf) : mdisk := MDisk l (m_has d) (m_txg d).

Inductive mevent :=
| MOp (op : cop)           (* a user's operation *)
| MInit (i : nat)          (* task [i] runs for the first time *)
| MStep (i : nat)          (* one step of its first phase *)
| MFinal (i fuel : nat)    (* its second phase *)
| MFault (j : nat)         (* the operator faults disk [j] *)
| MAttach.                 (* the operator adds a disk *)

(** [None] is a panic, a refused request or an event that cannot happen now. *)
Definition mstep (w : mworld) (e : mevent) : option mworld :=
  match e with
  | MOp op =>
      let* (c', r, o) := step v (mw_c w) op in
      Some (MWorld c' (live_next (mw_live w) op r) (map (fun d => fold_left hear o d) (mw_disks w)) (mw_tasks w))
  | MInit i =>   (* ddml.rs:73-101 [initialize] *)
      match nth_error (mw_tasks w) i with
      | Some (Pending x) => Some (MWorld (mw_c w) (mw_live w) (mw_disks w) (list_upd (mw_tasks w) i (Running (repair_start (fs (mw_c w)) x))))
      | _ => None
      end
  | MStep i =>   (* ddml.rs:103-118 [repair_closed_zones] *)
      match nth_error (mw_tasks w) i with
      | Some (Running t) =>
          let* (t', more, wk) := repair_step (fs (mw_c w)) t false in
          let* ds' := mirror_work (mw_disks w) wk in
          Some (MWorld (mw_c w) (mw_live w) ds' (list_upd (mw_tasks w) i (if more : bool then Running t' else Closing t')))
      | _ => None
      end
  | MFinal i fuel =>   (* ddml.rs:123-141 [finalize], mirror.rs:758-764 [Mirror::restore] *)
      match nth_error (mw_tasks w) i with
      | Some (Closing t) =>
          let* ds' := mfinalize fuel (fs (mw_c w)) (mw_disks w) t in
          Some (MWorld (mw_c w) (mw_live w) (map (fun d => set_leaf d (leaf_restore (m_leaf d))) ds') (list_upd (mw_tasks w) i Over))
      | _ => None
      end
  | MFault j =>   (* mirror.rs:416-424 [Mirror::fault] *)
      match nth_error (mw_disks w) j with
      | Some d => Some (MWorld (mw_c w) (mw_live w) (list_upd (mw_disks w) j (set_leaf d (leaf_fault (m_leaf d)))) (mw_tasks w))
      | None => None
      end
  | MAttach =>   (* ddml.rs:231-247 [attach], mirror.rs:350-369: refused while a disk is being rebuilt.  The new disk is then the only one, and its label has transaction 0 *)
      let* ls := mirror_attach (map m_leaf (mw_disks w)) in
      oassert (existsb (fun d => leaf_present (m_leaf d)) (mw_disks w))
           (Some (MWorld (mw_c w) (mw_live w) (mw_disks w ++ [MDisk (last ls LMissing) (fun _ => false) 0]) (mw_tasks w ++ [Pending 0])))
  end.
Fixpoint mrun (w : mworld) (es : list mevent) : option mworld :=
  match es with [] => Some w | e :: r => let* w' := mstep w e in mrun w' r end.
End Replace.
