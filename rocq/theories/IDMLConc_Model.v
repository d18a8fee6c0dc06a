(** Relocation and deletion of records running at the same time
    (bfffs-core/src/idml/idml.rs).

    [IDML::delete] and [IDML::move_record] are futures: between their steps
    other tasks run.  Each access to a table and each operation of the direct
    layer is one step here; the three futures joined at the end of [delete],
    and the two at the end of [move_record], may complete in any order.
    Reading the old copy of a record and writing the new one is a single step
    (nothing that happens between the two can change the bytes read: the zone
    is not erased before the transaction ends).  Reference counts are 1, as
    nothing in the code ever increments one. *)
From Verif Require Import Common ZMap FSM_Model DDML_Model IDML_Model.

Inductive task :=
(* idml.rs 520-554: [delete], before [ridt.get]; then with the space to be freed
   ([f]), the entries in the allocation table ([a]) and in the RID table ([r])
   still to be removed *)
| TDel0 (rid : Z)
| TDel (rid : Z) (e : entry) (f a r : bool)
(* idml.rs 367-442: [move_record], before [ridt.get]; with the entry; with the
   new copy written; with the old copy freed and the entries in the RID table
   ([r]) and in the allocation table ([a]) still to be inserted *)
| TMov0 (rid txg : Z)
| TMov1 (rid txg : Z) (e : entry)
| TMov2 (rid : Z) (e : entry) (n : drp)
| TMov3 (rid : Z) (e : entry) (n : drp) (r a : bool).

Definition task_rid (t : task) : Z :=
  match t with TDel0 r | TDel r _ _ _ _ | TMov0 r _ | TMov1 r _ _ | TMov2 r _ _ | TMov3 r _ _ _ _ => r end.

(** A deletion? *)
Definition isdel (t : task) : bool := match t with TDel0 _ | TDel _ _ _ _ _ => true | _ => false end.

(** Replace or drop one of the running tasks. *)
Definition upd {A} (i : Z) (o : option A) (l : list (Z * A)) := match o with Some x => zm_set i x l | None => zm_del i l end.

(** What of the joined futures completes next. *)
Inductive choice := ChFree | ChAlloct | ChRidt.

Definition del_next rid e (f a r : bool) : option task := if f || a || r then Some (TDel rid e f a r) else None.
Definition mov_next rid e n (r a : bool) : option task := if r || a then Some (TMov3 rid e n r a) else None.

Section Conc.
Context (K : codecs) (v : vdev) (junk : Z -> list Z).

(** One step of a task.  [None]: panic.  The task itself may end ([None] in the
    second component); a relocation that finds no space ends with an error. *)
Definition task_step (ch : choice) (t : task) (s : idml) : option (idml * option task) :=
  match t with
  | TDel0 rid =>
      let* e := zm_get rid (ridt s) in             (* "Double delete detected" *)
      Some (idml_evict rid s, Some (TDel rid e true true true))
  | TDel rid e f a r =>
      match ch with
      | ChFree => if f then let* d := delete_direct v (e_drp e) (dd s) in Some (set_dd d s, del_next rid e false a r)
                  else Some (s, Some t)
      | ChAlloct => if a then oassert (zm_mem (d_pba (e_drp e)) (alloct s))
                                (Some (set_alloct (zm_del (d_pba (e_drp e)) (alloct s)) s, del_next rid e f false r))
                    else Some (s, Some t)
      | ChRidt => if r then Some (set_ridt (zm_del rid (ridt s)) s, del_next rid e f a false) else Some (s, Some t)
      end
  | TMov0 rid txg =>
      let* e := zm_get rid (ridt s) in             (* "Inconsistency in alloct" *)
      Some (s, Some (TMov1 rid txg e))
  | TMov1 rid txg e =>
      let* (s, r) := move_copy K v junk rid e txg s in
      match r with
      | Err _ => Some (s, None)
      | Ok n => Some (s, Some (TMov2 rid e n))
      end
  | TMov2 rid e n =>
      let* d := delete_direct v (e_drp e) (dd s) in
      Some (set_dd d s, Some (TMov3 rid e n true true))
  | TMov3 rid e n r a =>
      match ch with
      | ChRidt => if r then Some (set_ridt (zm_set rid (mkentry n (e_ref e)) (ridt s)) s, mov_next rid e n false a)
                  else Some (s, Some t)
      | ChAlloct => if a then Some (set_alloct (zm_set (d_pba n) rid (alloct s)) s, mov_next rid e n r false)
                    else Some (s, Some t)
      | ChFree => Some (s, Some t)
      end
  end.

End Conc.
