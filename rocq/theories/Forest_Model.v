(** The forest of data sets (database/mod.rs, database/database.rs) and the
    control path operations on it (controller.rs).

    The forest is kept in a B-tree, which is an ordered map (C27); here it is an
    ordered map with the key [(tree_id, offset)] packed into one integer.  Names
    are the data set names without the pool's name (C45).  The hash MetroHash64 is
    a parameter.  A data set's tree is represented by the number of the record
    that holds its root; [recs] are the records that are allocated.  Operations
    are atomic; transactions and credit are left out.  [None] is a panic. *)
From Verif Require Import Common FSM_Model ZMap Prop_Model.

(** database/mod.rs 60-67 *)
Definition fk (tree_id offset : Z) : Z := tree_id * 2 ^ 64 + offset.

(** database/mod.rs 116-147 *)
Inductive fval := FTree (parent : option Z) (tod : Z) | FEnt (id : Z) (name : text).

Definition forest := list (Z * fval).

Inductive ferr := ENOENT | EEXIST | EBUSY | EINVAL.
Inductive fres (A : Type) := FOk (x : A) | FErr (e : ferr).
Arguments FOk {A}. Arguments FErr {A}.

(** [str::split('/')] *)
Fixpoint split (c : Z) (s : text) : list text :=
  match s with
  | [] => [[]]
  | x :: r => if x =? c then [] :: split c r
              else match split c r with w :: ws => (x :: w) :: ws | [] => [[x]] end
  end.

(** database/mod.rs 55-59: the next id, which must be a u64 *)
Definition next_id (id : Z) : option Z := if id + 1 <? 2 ^ 64 then Some (id + 1) else None.

Definition last_key (f : forest) : option Z := match rev f with (k, _) :: _ => Some k | [] => None end.

Section Forest.
Context (H : text -> Z).

(** database/mod.rs 75-88 *)
Definition tree_ent (parent : Z) (name : text) : option Z :=
  if existsb (Z.eqb SLASH) name then None
  else let offset := Z.land (H name) (2 ^ 56 - 1) in
       if offset =? 0 then None else Some (fk parent offset).

(** database/mod.rs 90-96 with [Tree::range] *)
Definition tree_ent_range (parent offset : Z) (f : forest) : option forest :=
  let* nx := next_id parent in
  Some (filter (fun p => (fk parent (Z.max offset 1) <=? fst p) && (fst p <? fk nx 0)) f).

(** database/mod.rs 186-196 *)
Definition get_tree (f : forest) (id : Z) : option (fres Z) :=
  match zm_get (fk id 0) f with
  | Some (FTree _ tod) => Some (FOk tod)
  | Some (FEnt _ _) => None
  | None => Some (FErr ENOENT)
  end.

(** database/mod.rs 198-236 *)
Definition insert_tree (f : forest) (parent : option Z) (name : text) (tod : Z) : option (forest * fres Z) :=
  let* id := match last_key f with Some k => next_id (k / 2 ^ 64) | None => Some 0 end in
  let tkey := fk id 0 in
  match zm_get tkey f with
  | Some _ => None
  | None =>
    let f := zm_set tkey (FTree parent tod) f in
    match parent with
    | None => Some (f, FOk id)
    | Some p =>
      let* ekey := tree_ent p name in
      let old := zm_get ekey f in
      let f := zm_set ekey (FEnt id name) f in
      match old with
      | None => Some (f, FOk id)
      | Some oe =>
        match zm_get tkey f with
        | None => None
        | Some _ => Some (zm_set ekey oe (zm_del tkey f), FErr EEXIST)
        end
      end
    end
  end.

(** database/mod.rs 238-267: the entries and their offsets *)
Fixpoint entries (l : forest) : option (list (text * Z * Z)) :=
  match l with
  | [] => Some []
  | (k, FEnt id name) :: r => let* es := entries r in Some ((name, id, k mod 2 ^ 64 + 1) :: es)
  | (_, FTree _ _) :: _ => None
  end.

Definition readdir (f : forest) (parent offs : Z) : option (list (text * Z * Z)) :=
  let* r := tree_ent_range parent offs f in entries r.

(** database/mod.rs 269-311: the parent's id and the tree's id *)
Fixpoint lookup_loop (f : forest) (parent : option Z) (id : Z) (comps : list text) : option (option Z * option Z) :=
  match comps with
  | [] => Some (parent, Some id)
  | c :: r =>
    let* k := tree_ent id c in
    match zm_get k f with
    | Some (FEnt id' name) => if text_eqb name c then lookup_loop f (Some id) id' r else None
    | Some (FTree _ _) => None
    | None => Some (None, None)
    end
  end.

Definition lookup (f : forest) (name : text) : option (option Z * option Z) :=
  match name with
  | [] => match zm_get (fk 0 0) f with
          | Some (FTree _ _) => Some (None, Some 0)
          | Some (FEnt _ _) => None
          | None => Some (None, None)
          end
  | _ => lookup_loop f None 0 (split SLASH name)
  end.

(** database/mod.rs 318-332 *)
Definition lookup_parent (f : forest) (id : Z) : option (option Z) :=
  match zm_get (fk id 0) f with
  | Some (FTree parent _) => Some parent
  | Some (FEnt _ _) => None
  | None => Some None
  end.

(** database/mod.rs 358-384.  The future that removes the tree is not polled if
    the function returns EBUSY. *)
Definition unlink (f : forest) (parent : option Z) (id : Z) (name : text) : option (forest * fres unit) :=
  if existsb (Z.eqb SLASH) name then None
  else if negb (xorb (match parent with Some _ => true | None => false end) (match name with [] => true | _ => false end)) then None
  else
    let* ch := tree_ent_range id 0 f in
    match ch with
    | _ :: _ => Some (f, FErr EBUSY)
    | [] =>
      match parent with
      | Some p => let* ekey := tree_ent p name in Some (zm_del ekey (zm_del (fk id 0) f), FOk tt)
      | None => Some (zm_del (fk id 0) f, FOk tt)
      end
    end.

(** The database: the forest, the allocated root records, the next record, and
    the controller's table of mounted file systems: ids, and whether the file
    system is still in use (controller.rs 56-60). *)
Record db := mkdb { df : forest; recs : list Z; nextr : Z; mounts : list (Z * bool) }.

Definition db_new : db := mkdb [] [] 0 [].

(** database.rs 488-573: an empty tree is written to a new record first.  Filling
    in the root directory is left out. *)
Definition db_create_fs (d : db) (parent : option Z) (name : text) : option (db * fres Z) :=
  let r := nextr d in
  let* (f, res) := insert_tree (df d) parent name r in
  Some (mkdb f (r :: recs d) (r + 1) (mounts d), res).

(** database.rs 157-195, 586-599: the contents and the root are deleted last *)
Definition db_destroy_fs (d : db) (parent : option Z) (id : Z) (name : text) : option (db * fres unit) :=
  let* g := get_tree (df d) id in
  match g with
  | FErr e => Some (d, FErr e)
  | FOk tod =>
    let* (f, res) := unlink (df d) parent id (last (split SLASH name) []) in
    match res with
    | FErr e => Some (mkdb f (recs d) (nextr d) (mounts d), FErr e)
    | FOk _ => Some (mkdb f (remove Z.eq_dec tod (recs d)) (nextr d) (mounts d), FOk tt)
    end
  end.

(** controller.rs 84-107 *)
Definition create_fs (d : db) (name : text) : option (db * fres Z) :=
  match rsplit_once SLASH name with
  | Some (pname, dsname) =>
    let* (_, parent) := lookup (df d) pname in
    match parent with
    | None => Some (d, FErr ENOENT)
    | Some _ => db_create_fs d parent dsname
    end
  | None => match name with
            | [] => db_create_fs d None name
            | _ => db_create_fs d (Some 0) name
            end
  end.

(** controller.rs 109-133 *)
Definition destroy_fs (d : db) (name : text) : option (db * fres unit) :=
  let* (parent, oid) := lookup (df d) name in
  match oid with
  | Some id => if zm_mem id (mounts d) then Some (d, FErr EBUSY) else db_destroy_fs d parent id name
  | None => Some (d, FErr ENOENT)
  end.

(** controller.rs 257-314 *)
Definition list_fs (d : db) (name : text) (offs : Z) : option (fres (list (text * Z * Z))) :=
  let* (_, oid) := lookup (df d) name in
  match oid with
  | None => Some (FErr ENOENT)
  | Some id => let* l := readdir (df d) id offs in Some (FOk l)
  end.

(** controller.rs 351-399: mounting *)
Definition new_fs (d : db) (name : text) : option (db * fres Z) :=
  let* (_, oid) := lookup (df d) name in
  match oid with
  | None => Some (d, FErr ENOENT)
  | Some id =>
    match zm_get id (mounts d) with
    | Some true => Some (d, FErr EBUSY)
    | _ => Some (mkdb (df d) (recs d) (nextr d) (zm_set id true (mounts d)), FOk id)
    end
  end.

(** controller.rs 436-468: unmounting through the controller.  unmount(2) fails
    if the file system is not mounted. *)
Definition unmount (d : db) (name : text) : option (db * fres unit) :=
  let* (_, oid) := lookup (df d) name in
  match oid with
  | None => Some (d, FErr ENOENT)
  | Some id =>
    match zm_get id (mounts d) with
    | Some true => Some (mkdb (df d) (recs d) (nextr d) (zm_del id (mounts d)), FOk tt)
    | _ => Some (d, FErr EINVAL)
    end
  end.

(** The file system was unmounted by umount(8): its [Fs] is gone, its entry in
    the table stays. *)
Definition dropped (d : db) (id : Z) : db :=
  if zm_mem id (mounts d) then mkdb (df d) (recs d) (nextr d) (zm_set id false (mounts d)) else d.

Inductive fop := OCreate (name : text) | ODestroy (name : text) | OLookup (name : text) | OMount (name : text)
               | OUnmount (name : text) | ODropped (id : Z).
Inductive fans := AId (r : fres Z) | AUnit (r : fres unit) | ALook (r : option Z * option Z) | ANone.

Definition fdo (d : db) (o : fop) : option (db * fans) :=
  match o with
  | OCreate n => let* (d, r) := create_fs d n in Some (d, AId r)
  | ODestroy n => let* (d, r) := destroy_fs d n in Some (d, AUnit r)
  | OLookup n => let* r := lookup (df d) n in Some (d, ALook r)
  | OMount n => let* (d, r) := new_fs d n in Some (d, AId r)
  | OUnmount n => let* (d, r) := unmount d n in Some (d, AUnit r)
  | ODropped id => Some (dropped d id, ANone)
  end.

Fixpoint fdos (d : db) (ops : list fop) : option (db * list fans) :=
  match ops with
  | [] => Some (d, [])
  | o :: r => let* (d, a) := fdo d o in let* (d, l) := fdos d r in Some (d, a :: l)
  end.

End Forest.
