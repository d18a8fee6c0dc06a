(** The life of a data set in memory and the transaction sync
    (database/database.rs), with every interleaving of the tasks that use it.

    A data set's contents are the list of the writes made to it (each write is
    named by the task that made it): the B-tree that holds them is a function of
    the operations applied to it (C27).  The forest maps a data set's id to the
    contents its tree had when its root was last recorded there; names are left
    out (C25).  [disk] is the forest as of the last label written, that is what
    the pool holds after a crash.  Credit is left out; a task may wait anywhere
    the code awaits.  The transaction lock may be granted in any order. *)
From Verif Require Import Common FSM_Model ZMap.

Definition log := list Z.

(** What a task wants the data set for. *)
Inductive goal := GRead | GWrite | GInit | GDestroy.

Inductive task :=
| TOpen (g : goal) (id : Z)              (* will look into [fs_trees] *)
| TGet (g : goal) (id : Z)               (* not there: will look into the forest *)
| TReg (g : goal) (id : Z) (l : log)     (* will enter its own tree into [fs_trees] *)
| THave (g : goal) (id o : Z)            (* has a tree, will lock the transaction *)
| TIn (g : goal) (id o : Z)              (* holds the transaction lock, shared *)
| TNew                                   (* will create: waits for the transaction lock *)
| TSync (bg : bool)                      (* will lock the transaction exclusively *)
| TSLock (bg : bool)                     (* holds it *)
| TSFlushed (bg : bool)                  (* holds it, has written the trees and the forest *)
| TDone.

(** [alive]: the background task that syncs every five seconds has not panicked. *)
Record st := mkst {
  dirty : bool;
  alive : bool;
  fs : list (Z * Z);           (* fs_trees: id and tree *)
  objs : list log;             (* the trees in memory *)
  forest : list (Z * log);
  disk : list (Z * log);
  tasks : list task }.

Inductive call := CRead (id : Z) | CWrite (id : Z) | CCreate | CDestroy (id : Z) | CSync | CBg.
Inductive ret := ROk | RErr | RPanic | RLog (l : log) | RId (id : Z).
Inductive ev := EvCall (t : Z) (c : call) | EvRet (t : Z) (r : ret).

(** The outcome of the disk operations of a step: a failed sync may have written
    its label. *)
Inductive io := IOk | IFail | IFailLate.
Inductive lab := LCall (c : call) | LStep (t : Z) (x : io).

(** A pool is imported: database.rs 197-202, [Database::open]. *)
Definition import (f : list (Z * log)) : st := mkst true true [] [] f f [].

(** Holding the transaction lock shared.  [create_fs] holds it from before the
    tree is entered into the forest to the end (database.rs 506-572). *)
Definition holds (k : task) : bool :=
  match k with TOpen GInit _ | TGet GInit _ | TReg GInit _ _ | THave GInit _ _ | TIn _ _ _ => true | _ => false end.
Definition exclusive (k : task) : bool := match k with TSLock _ | TSFlushed _ => true | _ => false end.
Definition wlocked (s : st) : bool := existsb exclusive (tasks s).

Definition set_task (s : st) (t : Z) (k : task) : st :=
  mkst (dirty s) (alive s) (fs s) (objs s) (forest s) (disk s) (lset (tasks s) t k).

Definition new_task (s : st) (d : bool) (k : task) : st :=
  mkst d (alive s) (fs s) (objs s) (forest s) (disk s) (tasks s ++ [k]).

(** database/mod.rs 198-216 *)
Definition fresh_id (f : list (Z * log)) : Z := match rev f with (k, _) :: _ => k + 1 | [] => 0 end.

(** database.rs 737-750: each tree in [fs_trees] is flushed and its root entered
    into the forest *)
Definition updated (s : st) : list (Z * log) :=
  map (fun p => (fst p, match zm_get (fst p) (fs s) with
                        | Some o => match lget (objs s) o with Some l => l | None => snd p end
                        | None => snd p
                        end)) (forest s).

(** database/mod.rs 386-398: ENOENT *)
Definition all_known (s : st) : bool := forallb (fun p => zm_mem (fst p) (forest s)) (fs s).

(** database.rs 98-103: the background task panics if its sync fails *)
Definition sync_failed (s : st) (t : Z) (bg : bool) (f d : list (Z * log)) : st * list ev :=
  (mkst (dirty s) (alive s && negb bg) (fs s) (objs s) f d (lset (tasks s) t TDone), [EvRet t RErr]).

(** Calls: the flag [dirty] is handled at once (database.rs 173, 254, 495, 732).
    [sync_transaction] also sends a message to the background task, and fails if
    that is gone (database.rs 66-73, 712-718). *)
Definition do_call (s : st) (c : call) : st * list ev :=
  let t := zlen (tasks s) in
  match c with
  | CRead id => (new_task s (dirty s) (TOpen GRead id), [EvCall t c])
  | CWrite id => (new_task s true (TOpen GWrite id), [EvCall t c])
  | CCreate => (new_task s true TNew, [EvCall t c])
  | CDestroy id => (new_task s true (TOpen GDestroy id), [EvCall t c])
  | CSync => if negb (alive s) then (new_task s false TDone, [EvCall t c; EvRet t RErr])
             else if dirty s then (new_task s false (TSync false), [EvCall t c])
             else (new_task s false TDone, [EvCall t c; EvRet t ROk])
  | CBg => if dirty s && alive s then (new_task s false (TSync true), [EvCall t c])
           else (new_task s (dirty s) TDone, [EvCall t c; EvRet t ROk])
  end.

(** One step of a task.  [None]: it cannot run now. *)
Definition do_step (s : st) (t : Z) (x : io) : option (st * list ev) :=
  let* k := lget (tasks s) t in
  match k with
  | TOpen g id =>                                                     (* database.rs 228-230 *)
    match zm_get id (fs s) with
    | Some o => Some (set_task s t (THave g id o), [])
    | None => Some (set_task s t (TGet g id), [])
    end
  | TGet g id =>                                                      (* database.rs 231-233 *)
    match zm_get id (forest s) with
    | Some l => Some (set_task s t (TReg g id l), [])
    | None => Some (set_task s t TDone, [EvRet t RErr])
    end
  | TReg g id l =>                                                    (* database.rs 204-221: it returns its own tree *)
    let o := zlen (objs s) in
    let fs' := if zm_mem id (fs s) then fs s else zm_set id o (fs s) in
    Some (mkst (dirty s) (alive s) fs' (objs s ++ [l]) (forest s) (disk s) (lset (tasks s) t (THave g id o)), [])
  | THave GRead id o =>                                               (* database.rs 595-604 *)
    let* l := lget (objs s) o in
    Some (set_task s t TDone, [EvRet t (RLog l)])
  | THave g id o =>                                                   (* database.rs 178, 265 *)
    if wlocked s then None else Some (set_task s t (TIn g id o), [])
  | TIn GDestroy id o =>                                              (* database.rs 180-194 *)
    let f := zm_del id (forest s) in
    match zm_get id (fs s) with
    | Some o => Some (mkst (dirty s) (alive s) (zm_del id (fs s)) (lset (objs s) o []) f (disk s) (lset (tasks s) t TDone), [EvRet t ROk])
    | None => Some (mkst (dirty s) (alive s) (fs s) (objs s) f (disk s) (lset (tasks s) t TDone), [EvRet t RPanic])
    end
  | TIn g id o =>                                                     (* database.rs 266-269, 514-572 *)
    let* l := lget (objs s) o in
    Some (mkst (dirty s) (alive s) (fs s) (lset (objs s) o (l ++ [t])) (forest s) (disk s) (lset (tasks s) t TDone),
          [EvRet t (match g with GInit => RId id | _ => ROk end)])
  | TNew =>                                                           (* database.rs 506-512; 254 sets [dirty] *)
    if wlocked s then None
    else let id := fresh_id (forest s) in
         Some (mkst true (alive s) (fs s) (objs s) (zm_set id [] (forest s)) (disk s) (lset (tasks s) t (TOpen GInit id)), [])
  | TSync bg =>                                                       (* idml.rs 478 *)
    if wlocked s || existsb holds (tasks s) then None else Some (set_task s t (TSLock bg), [])
  | TSLock bg =>                                                      (* database.rs 737-751 *)
    match x with
    | IOk => if all_known s
             then Some (mkst (dirty s) (alive s) (fs s) (objs s) (updated s) (disk s) (lset (tasks s) t (TSFlushed bg)), [])
             else Some (sync_failed s t bg (updated s) (disk s))
    | _ => Some (sync_failed s t bg (forest s) (disk s))
    end
  | TSFlushed bg =>                                                   (* database.rs 752-766 *)
    match x with
    | IOk => Some (mkst (dirty s) (alive s) (fs s) (objs s) (forest s) (forest s) (lset (tasks s) t TDone), [EvRet t ROk])
    | IFail => Some (sync_failed s t bg (forest s) (disk s))
    | IFailLate => Some (sync_failed s t bg (forest s) (forest s))
    end
  | TDone => None
  end.

Definition step (s : st) (l : lab) : option (st * list ev) :=
  match l with LCall c => Some (do_call s c) | LStep t x => do_step s t x end.

Fixpoint steps (s : st) (ls : list lab) : option (st * list ev) :=
  match ls with
  | [] => Some (s, [])
  | l :: ls => let* (s, e) := step s l in let* (s, es) := steps s ls in Some (s, e ++ es)
  end.
