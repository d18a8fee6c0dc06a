(** Properties of mounted file systems: the daemon's mount and unmount
    (bfffs/src/bin/bfffsd/main.rs), the controller's set_prop, new_fs, unmount and
    destroy_fs (bfffs-core/src/controller.rs), the values that a mounted file
    system keeps in memory (bfffs-core/src/fs.rs), and the kernel's mount table.

    Data sets are named by the numbers of their trees; that a name leads to the
    right tree is C25 and C45.  Requests are handled one at a time. *)
From Verif Require Import Common ZMap Prop_Model.
Open Scope Z_scope.

(** fs.rs 404-417, [Fs], and its line in the kernel's mount table: the tree, the
    path where it is mounted, and the two properties that are kept in memory.
    [m_id] tells the [Fs] objects of one tree apart. *)
Record mnt := Mnt { m_id : Z; m_tree : Z; m_path : text; m_atime : bool; m_recsize : Z }.

(** [stored]: the properties on disk, fs.rs 2302-2324.  [table]: the controller's
    map of file systems, controller.rs 57-58; it holds weak references, here the
    [m_id].  [mounted]: the kernel's mount table, latest first; it holds the only
    strong reference to an [Fs] (main.rs 236-239).  [gone]: destroyed data sets. *)
Record st := St { stored : Z -> pname -> option property; table : list (Z * Z);
                  mounted : list mnt; next : Z; gone : list Z }.

Inductive err := NOENT | INVAL | BUSY | EIO.
Inductive answer := Done | Refused (e : err) | Panicked.

Definition pname_eqb (a b : pname) : bool :=
  match a, b with
  | NAtime, NAtime | NBaseMountpoint, NBaseMountpoint | NMountpoint, NMountpoint
  | NName, NName | NRecordSize, NRecordSize => true
  | _, _ => false
  end.

Section Daemon.
(** What [Database::lookup_parent] returns, the data sets' names, and how the
    program was built (it matters for more than 255 levels, C44). *)
Context (par : Z -> option Z) (name : Z -> text) (bld : build) (fuel : nat).

(** controller.rs 178-193, what a client is told about a property *)
Definition told (s : st) (t : Z) (n : pname) : option property :=
  match get_prop par (stored s) bld fuel (name t) t n with Some (p, _) => Some p | None => None end.

(** [Weak::upgrade]: the [Fs] exists as long as it is mounted *)
Definition upgrade (s : st) (t : Z) : option mnt :=
  match zm_get t (table s) with
  | Some i => find (fun m => m_id m =? i) (mounted s)
  | None => None
  end.

(** fs.rs 2316-2322, the insertion of the property *)
Definition put (s : st) (t : Z) (p : property) : st :=
  St (fun t' n => if (t' =? t) && pname_eqb n (name_of p) then Some p else stored s t' n)
     (table s) (mounted s) (next s) (gone s).

(** fs.rs 2302-2324, [set_prop_unmounted].  [w]: does the write succeed? *)
Definition set_prop_unmounted (s : st) (t : Z) (p : property) (w : bool) : st * answer :=
  match p with
  | Mountpoint _ => (s, Panicked)
  | BaseMountpoint mp =>
    match strip_prefix [SLASH] mp with
    | None => (s, Refused INVAL)
    | Some _ => if w then (put s t p, Done) else (s, Refused EIO)
    end
  | _ => if w then (put s t p, Done) else (s, Refused EIO)
  end.

(** Changing what the [Fs] with number [i] keeps in memory. *)
Definition remember (s : st) (i : Z) (f : mnt -> mnt) : st :=
  St (stored s) (table s) (map (fun m => if m_id m =? i then f m else m) (mounted s)) (next s) (gone s).

(** fs.rs 2286-2299, [set_prop] of a mounted file system *)
Definition fs_set_prop (s : st) (m : mnt) (p : property) (w : bool) : st * answer :=
  match p with
  | Atime b =>
    set_prop_unmounted (remember s (m_id m) (fun m => Mnt (m_id m) (m_tree m) (m_path m) b (m_recsize m))) (m_tree m) p w
  | RecordSize e =>
    set_prop_unmounted (remember s (m_id m) (fun m => Mnt (m_id m) (m_tree m) (m_path m) (m_atime m) e)) (m_tree m) p w
  | _ => (s, Panicked)
  end.

(** controller.rs 400-418, [set_prop] *)
Definition set_prop (s : st) (t : Z) (p : property) (w : bool) : st * answer :=
  let p := prop_inheritable p in
  if existsb (Z.eqb t) (gone s) then (s, Refused NOENT)
  else match upgrade s t with
       | Some m => fs_set_prop s m p w
       | None => set_prop_unmounted s t p w
       end.

(** main.rs 219-246, [mount], controller.rs 346-396, [new_fs], and fs.rs
    1044-1094, [Fs::new], of which only the properties are modelled.  [k]: does
    the kernel accept the mount?  If not, the [Fs] is dropped, but the table keeps
    its line. *)
Definition mount (s : st) (t : Z) (k : bool) : st * answer :=
  if existsb (Z.eqb t) (gone s) then (s, Refused NOENT)
  else match told s t NMountpoint with
       | Some (Mountpoint mp) =>
         match upgrade s t with
         | Some _ => (s, Refused BUSY)
         | None =>
           match told s t NAtime, told s t NRecordSize with
           | Some (Atime a), Some (RecordSize r) =>
             let s' := St (stored s) (zm_set t (next s) (table s)) (mounted s) (next s + 1) (gone s) in
             if k then (St (stored s') (table s') (Mnt (next s) t mp a r :: mounted s) (next s') (gone s'), Done)
             else (s', Refused EIO)
           | _, _ => (s, Panicked)
           end
         end
       | _ => (s, Panicked)
       end.

(** unmount(2) of the kernel, which is not bfffs code: the latest mount at the path
    goes.  Paths are compared as they are written. *)
Fixpoint kernel_unmount (path : text) (l : list mnt) : option (list mnt) :=
  match l with
  | [] => None
  | m :: r => if text_eqb (m_path m) path then Some r
              else match kernel_unmount path r with Some r' => Some (m :: r') | None => None end
  end.

(** controller.rs 437-465, [unmount].  [busy]: the kernel refuses because files are
    open (unmounting by force never is refused). *)
Definition unmount (s : st) (t : Z) (busy : bool) : st * answer :=
  if existsb (Z.eqb t) (gone s) then (s, Refused NOENT)
  else match told s t NMountpoint with
       | Some (Mountpoint mp) =>
         match kernel_unmount mp (mounted s) with
         | None => (s, Refused INVAL)
         | Some l =>
           if busy then (s, Refused BUSY)
           else (St (stored s) (zm_del t (table s)) l (next s) (gone s), Done)
         end
       | _ => (s, Panicked)
       end.

(** umount(8), which does not ask the daemon: the session ends and the [Fs] is
    dropped, but the controller's table is not told. *)
Definition umount (s : st) (path : text) : st * answer :=
  match kernel_unmount path (mounted s) with
  | None => (s, Refused INVAL)
  | Some l => (St (stored s) (table s) l (next s) (gone s), Done)
  end.

(** controller.rs 116-133, [destroy_fs].  [w]: does the database destroy it (it has
    no children, and writing succeeds)? *)
Definition destroy (s : st) (t : Z) (w : bool) : st * answer :=
  if existsb (Z.eqb t) (gone s) then (s, Refused NOENT)
  else if zm_mem t (table s) then (s, Refused BUSY)
  else if w then (St (stored s) (table s) (mounted s) (next s) (t :: gone s), Done)
  else (s, Refused EIO).

Inductive op :=
| Set_ (t : Z) (p : property) (w : bool)
| Mount (t : Z) (k : bool)
| Unmount (t : Z) (busy : bool)
| Umount (path : text)
| Destroy (t : Z) (w : bool).

(** main.rs 335-406 *)
Definition step (s : st) (o : op) : st * answer :=
  match o with
  | Set_ t p w => set_prop s t p w
  | Mount t k => mount s t k
  | Unmount t busy => unmount s t busy
  | Umount path => umount s path
  | Destroy t w => destroy s t w
  end.

Fixpoint run (s : st) (os : list op) : st :=
  match os with [] => s | o :: r => run (fst (step s o)) r end.

(** controller.rs 338-343: nothing is mounted when the daemon starts; the
    properties are those on disk. *)
Definition start (p : Z -> pname -> option property) : st := St p [] [] 0 [].
End Daemon.
