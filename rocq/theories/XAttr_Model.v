(** Extended attributes: fs.rs (setextattr, getextattr, getextattrlen, listextattr, listextattrlen, deleteextattr,
    do_delete_inode) over the part of the file system tree that holds attributes, and the daemon's requests about them
    (bfffsd/fs.rs).

    Simplifications, for the whole file:
    - the tree is a map (C27, C29) from keys to values, kept in key order.  Values of other kinds (inodes, directory entries,
      extents) are left out: their keys are others (C32).
    - requests on one file are run one after the other: the kernel locks the file exclusively to change its attributes, and a
      sync waits for running transactions (C26), so no flush comes between the steps of one request.
    - credit is left out; storage never fails (an unknown record id is the panic [None]).
    - bytes are integers.  [None] is a panic. *)
From Verif Require Import Common ZMap FSKey_Model HTable_Model.

(** fs_tree.rs:46-51 *)
Inductive namespace := User | System.
(** the identity of an attribute within its file: namespace and name (fs_tree.rs:562-566) *)
Definition xname : Type := namespace * list Z.

(** OsStr equality *)
Fixpoint bytes_eqb (a b : list Z) : bool :=
  match a, b with
  | [], [] => true
  | x :: a', y :: b' => (x =? y) && bytes_eqb a' b'
  | _, _ => false
  end.
Definition ns_eqb (a b : namespace) : bool := match a, b with User, User | System, System => true | _, _ => false end.
(** fs_tree.rs:780-782 ExtAttr::same *)
Definition xsame (a b : xname) : bool := ns_eqb (fst a) (fst b) && bytes_eqb (snd a) (snd b).

(** fs_tree.rs:672-675 ExtAttr: the value is in the tree or in a record of its own (1045-1053 InlineExtent, 1130-1136
    BlobExtent with [lsize] a u32) *)
Inductive xval := Inl (buf : list Z) | Blb (rid lsize : Z).

(** A transaction's view: the attributes by key; the records stored in the DML by id; the id the DML gives next; the ids
    deleted, in order (only to state that none is freed twice). *)
Record xs := Xs { x_tab : list (Z * @cell xname xval); x_recs : list (Z * list Z); x_next : Z; x_freed : list Z }.

Definition u32 (n : Z) : Z := n mod 2 ^ 32.
Definition zlen {A} (l : list A) : Z := Z.of_nat (length l).

(** dml.delete, and the deleting half of dml.pop *)
Definition rec_delete (d : xs) (r : Z) : option (xs * list Z) :=
  match zm_get r (x_recs d) with
  | Some b => Some (Xs (x_tab d) (zm_del r (x_recs d)) (x_next d) (x_freed d ++ [r]), b)
  | None => None
  end.

(** fs_tree.rs:699-717 ExtAttr::dpop: afterwards the value is inline; the model keeps just its bytes *)
Definition dpop_val (d : xs) (v : xval) : option (xs * list Z) :=
  match v with Inl b => Some (d, b) | Blb r _ => rec_delete d r end.
Fixpoint dpop_vals (d : xs) (l : list (xname * xval)) : option (xs * list (xname * list Z)) :=
  match l with
  | [] => Some (d, [])
  | (n, v) :: l' =>
      match dpop_val d v with
      | Some (d1, b) => match dpop_vals d1 l' with Some (d2, l2) => Some (d2, (n, b) :: l2) | None => None end
      | None => None
      end
  end.
(** fs_tree.rs:1424-1437 FSValue::dpop *)
Definition dpop (d : xs) (c : @cell xname xval) : option (xs * @cell xname (list Z)) :=
  match c with
  | Single (n, v) => match dpop_val d v with Some (d1, b) => Some (d1, Single (n, b)) | None => None end
  | Bucket l => match dpop_vals d l with Some (d1, l1) => Some (d1, Bucket l1) | None => None end
  | Other => Some (d, Other)
  end.

(** fs_tree.rs:1396-1408 FSValue::ddrop *)
Definition ddrop (d : xs) (c : @cell xname xval) : option xs :=
  match c with
  | Single (_, Blb r _) => match rec_delete d r with Some (d1, _) => Some d1 | None => None end
  | Single (_, Inl _) => Some d
  | Bucket l =>
      fold_left (fun od x => match od, snd x with
                             | Some d, Blb r _ => match rec_delete d r with Some (d1, _) => Some d1 | None => None end
                             | od, _ => od
                             end) l (Some d)
  | Other => Some d
  end.

(** values written by the functions below are inline *)
Definition inl (x : xname * list Z) : xname * xval := (fst x, Inl (snd x)).
Definition inl_cell (c : @cell xname (list Z)) : @cell xname xval :=
  match c with Single x => Single (inl x) | Bucket l => Bucket (map inl l) | Other => Other end.

(** tree/node.rs:410-458 LeafNode::insert: the old value is popped and returned *)
Definition t_insert (d : xs) (k : Z) (c : @cell xname (list Z)) : option (xs * option (@cell xname (list Z))) :=
  let d' := Xs (zm_set k (inl_cell c) (x_tab d)) (x_recs d) (x_next d) (x_freed d) in
  match zm_get k (x_tab d) with
  | None => Some (d', None)
  | Some o => match dpop d' o with Some (d2, o2) => Some (d2, Some o2) | None => None end
  end.
(** tree/node.rs:537-561 LeafNode::remove *)
Definition t_remove (d : xs) (k : Z) : option (xs * option (@cell xname (list Z))) :=
  let d' := Xs (zm_del k (x_tab d)) (x_recs d) (x_next d) (x_freed d) in
  match zm_get k (x_tab d) with
  | None => Some (d', None)
  | Some o => match dpop d' o with Some (d2, o2) => Some (d2, Some o2) | None => None end
  end.
(** tree/node.rs:497-533 range_delete *)
Definition in_rangeb (r : Z * Z) (k : Z) : bool := (fst r <=? k) && (k <? snd r).
Definition t_range (d : xs) (r : Z * Z) : list (Z * @cell xname xval) := filter (fun p => in_rangeb r (fst p)) (x_tab d).
Definition t_range_delete (d : xs) (r : Z * Z) : option xs :=
  fold_left (fun od p => match od with Some d => ddrop d (snd p) | None => None end) (t_range d r)
    (Some (Xs (filter (fun p => negb (in_rangeb r (fst p))) (x_tab d)) (x_recs d) (x_next d) (x_freed d))).

(** fs.rs:129-194 htable::insert.  The value just inserted is read back ([T::try_from] wants a single item). *)
Definition new_item (d : xs) (k : Z) : option (xname * list Z) :=
  match zm_get k (x_tab d) with Some (Single (n, Inl b)) => Some (n, b) | _ => None end.
Definition h_insert (d : xs) (k : Z) (x : xname * list Z) : option (xs * option (list Z)) :=
  match t_insert d k (Single x) with
  | Some (d1, r) =>
    match r with
    | Some (Single old) =>
        if xsame (fst old) (fst x) then Some (d1, Some (snd old))
        else match new_item d1 k with
             | Some new => match t_insert d1 k (Bucket [old; new]) with Some (d2, _) => Some (d2, None) | None => None end
             | None => None
             end
    | Some (Bucket old) =>
        match new_item d1 k with
        | Some new =>
            match replace_first xsame (fst x) new old with
            | Some (o, old') => match t_insert d1 k (Bucket old') with Some (d2, _) => Some (d2, Some (snd o)) | None => None end
            | None => match t_insert d1 k (Bucket (old ++ [new])) with Some (d2, _) => Some (d2, None) | None => None end
            end
        | None => None
        end
    | Some Other => None
    | None => Some (d1, None)
    end
  | None => None
  end.

(** fs.rs:199-260 htable::remove; the answer [None] is ENOATTR *)
Definition h_remove (d : xs) (k : Z) (n : xname) : option (xs * option (list Z)) :=
  match t_remove d k with
  | Some (d1, r) =>
    match r with
    | Some (Single old) =>
        if xsame (fst old) n then Some (d1, Some (snd old))
        else match t_insert d1 k (Single old) with Some (d2, _) => Some (d2, None) | None => None end
    | Some (Bucket old) =>
        match swap_remove xsame n old with
        | Some (r, old') =>
            let v := match old' with [x] => Single x | _ => Bucket old' end in
            match t_insert d1 k v with Some (d2, _) => Some (d2, Some (snd r)) | None => None end
        | None => match t_insert d1 k (Bucket old) with Some (d2, _) => Some (d2, None) | None => None end
        end
    | None => Some (d1, None)
    | Some Other => None
    end
  | None => None
  end.

Section Hash.
(** fs_tree.rs:150-156 the hash of namespace and name, masked to 56 bits *)
Context (hash : xname -> Z).
Definition xkey (ino : Z) (n : xname) : Z := fskey_new ino (ExtAttr (hash n)).

(** fs.rs:2256-2281 *)
Definition setextattr (d : xs) (ino : Z) (n : xname) (b : list Z) : option xs :=
  match h_insert d (xkey ino n) (n, b) with Some (d', _) => Some d' | None => None end.

(** fs.rs:600-614; [false] is ENOATTR *)
Definition deleteextattr (d : xs) (ino : Z) (n : xname) : option (xs * bool) :=
  match h_remove d (xkey ino n) n with
  | Some (d', Some _) => Some (d', true)
  | Some (d', None) => Some (d', false)
  | None => None
  end.

(** the bytes of a value: fs.rs:1281-1291 *)
Definition val_bytes (d : xs) (v : xval) : option (list Z) :=
  match v with Inl b => Some b | Blb r _ => zm_get r (x_recs d) end.
(** fs.rs:1271-1298, 85-127 htable::get; the answer [None] is ENOATTR *)
Definition getextattr (d : xs) (ino : Z) (n : xname) : option (option (list Z)) :=
  match zm_get (xkey ino n) (x_tab d) with
  | Some (Single old) =>
      if xsame (fst old) n then match val_bytes d (snd old) with Some b => Some (Some b) | None => None end else Some None
  | Some (Bucket old) =>
      if (length old <=? 1)%nat then None
      else match find (fun x => xsame (fst x) n) old with
           | Some x => match val_bytes d (snd x) with Some b => Some (Some b) | None => None end
           | None => Some None
           end
  | Some Other => None
  | None => Some None
  end.

(** fs.rs:1300-1358, with its own search through the bucket *)
Definition val_len (v : xval) : Z := match v with Inl b => u32 (zlen b) | Blb _ l => l end.
Definition getextattrlen (d : xs) (ino : Z) (n : xname) : option (option Z) :=
  match zm_get (xkey ino n) (x_tab d) with
  | Some (Single old) => if xsame (fst old) n then Some (Some (val_len (snd old))) else Some None
  | Some (Bucket old) =>
      if (length old <=? 1)%nat then None
      else match find (fun x => xsame (fst x) n) old with
           | Some x => Some (Some (val_len (snd x)))
           | None => Some None
           end
  | _ => Some None
  end.

(** fs.rs:1517-1539 listextattr, with the caller's packing function *)
Definition cell_items {V} (c : @cell xname V) : list (xname * V) :=
  match c with Single x => [x] | Bucket l => l | Other => [] end.
Fixpoint fold_cells {B} (f : B -> xname -> B) (b : B) (l : list (Z * @cell xname xval)) : option B :=
  match l with
  | [] => Some b
  | (_, Other) :: _ => None
  | (_, c) :: l' => fold_cells f (fold_left (fun b x => f b (fst x)) (cell_items c) b) l'
  end.
Definition listextattr {B} (d : xs) (ino : Z) (f : B -> xname -> B) (b : B) : option B :=
  fold_cells f b (t_range d (extattr_range ino)).
(** fs.rs:1553-1570 listextattrlen: u32 sums, wrapping in release builds *)
Definition listextattrlen (d : xs) (ino : Z) (f : xname -> Z) : option Z :=
  fold_cells (fun len n => u32 (len + f n)) 0 (t_range d (extattr_range ino)).

(** fs.rs:676-680 do_delete_inode, once the file is gone for good *)
Definition delete_inode (d : xs) (ino : Z) : option xs := t_range_delete d (obj_range ino).

(** fs_tree.rs:1441-1463 flush_bt, 1298-1322 FSValue::flush, 568-587 InlineExtAttr::flush: long values get a record.  The ids are given
    in key order; in the source, in the order the writes are started.  tree flushes also leave clean nodes alone, whose
    values were flushed before. *)
Definition BLOB_THRESHOLD : Z := 1024. (* fs_tree.rs:44, BYTES_PER_LBA / 4 *)
Definition flush_val (st : list (Z * list Z) * Z) (v : xval) : (list (Z * list Z) * Z) * xval :=
  match v with
  | Inl b => if BLOB_THRESHOLD <? zlen b then ((zm_set (snd st) b (fst st), snd st + 1), Blb (snd st) (u32 (zlen b))) else (st, v)
  | Blb _ _ => (st, v)
  end.
Fixpoint flush_items (st : list (Z * list Z) * Z) (l : list (xname * xval)) : (list (Z * list Z) * Z) * list (xname * xval) :=
  match l with
  | [] => (st, [])
  | (n, v) :: l' => let '(st1, v1) := flush_val st v in let '(st2, l2) := flush_items st1 l' in (st2, (n, v1) :: l2)
  end.
Fixpoint flush_tab (st : list (Z * list Z) * Z) (l : list (Z * @cell xname xval))
  : (list (Z * list Z) * Z) * list (Z * @cell xname xval) :=
  match l with
  | [] => (st, [])
  | (k, c) :: l' =>
      let '(st1, c1) := match c with
                        | Single (n, v) => let '(st1, v1) := flush_val st v in (st1, Single (n, v1))
                        | Bucket b => let '(st1, b1) := flush_items st b in (st1, Bucket b1)
                        | Other => (st, Other)
                        end in
      let '(st2, l2) := flush_tab st1 l' in (st2, (k, c1) :: l2)
  end.
Definition flush (d : xs) : xs :=
  let '((recs, nx), tab) := flush_tab (x_recs d, x_next d) (x_tab d) in Xs tab recs nx (x_freed d).

(** * The daemon *)
(** bfffsd/fs.rs:214-229 split_xattr_name; [46] is '.' *)
Fixpoint split_dot (l : list Z) : list Z * option (list Z) :=
  match l with
  | [] => ([], None)
  | c :: l' => if c =? 46 then ([], Some l') else let '(a, b) := split_dot l' in (c :: a, b)
  end.
Definition s_user : list Z := [117; 115; 101; 114].
Definition s_system : list Z := [115; 121; 115; 116; 101; 109].
Definition split_xattr_name (packed : list Z) : option xname :=
  let '(ns, rest) := split_dot packed in
  let ons := if bytes_eqb ns s_user then Some User else if bytes_eqb ns s_system then Some System else None in
  match ons, rest with
  | Some ns, Some name => Some (ns, name)
  | _, _ => None
  end.

(** ReplyXAttr, or an errno *)
Inductive reply := Size (n : Z) | Data (b : list Z) | Done | ENOATTR | ERANGE.

(** bfffsd/fs.rs:1008-1029.  The flags and the position are not used. *)
Definition fuse_setxattr (d : xs) (ino : Z) (packed value : list Z) (flags position : Z) : option (xs * reply) :=
  match split_xattr_name packed with
  | Some n => match setextattr d ino n value with Some d' => Some (d', Done) | None => None end
  | None => None
  end.
(** bfffsd/fs.rs:836-854 *)
Definition fuse_removexattr (d : xs) (ino : Z) (packed : list Z) : option (xs * reply) :=
  match split_xattr_name packed with
  | Some n => match deleteextattr d ino n with
              | Some (d', true) => Some (d', Done) | Some (d', false) => Some (d', ENOATTR) | None => None end
  | None => None
  end.
(** bfffsd/fs.rs:399-435 *)
Definition fuse_getxattr (d : xs) (ino : Z) (packed : list Z) (size : Z) : option reply :=
  match split_xattr_name packed with
  | None => None
  | Some n =>
      if size =? 0 then
        match getextattrlen d ino n with Some (Some l) => Some (Size l) | Some None => Some ENOATTR | None => None end
      else
        match getextattr d ino n with
        | Some (Some b) => if zlen b <=? size then Some (Data b) else Some ERANGE
        | Some None => Some ENOATTR
        | None => None
        end
  end.
(** bfffsd/fs.rs:582-631 *)
Definition prefix (ns : namespace) : list Z := match ns with User => s_user ++ [46] | System => s_system ++ [46] end.
Definition pack (buf : list Z) (n : xname) : list Z := buf ++ prefix (fst n) ++ snd n ++ [0].
Definition pack_len (n : xname) : Z := u32 (u32 (zlen (prefix (fst n)) + u32 (zlen (snd n))) + 1).
Definition fuse_listxattr (d : xs) (ino : Z) (size : Z) : option reply :=
  if size =? 0 then
    match listextattrlen d ino pack_len with Some l => Some (Size l) | None => None end
  else
    match listextattr d ino pack [] with
    | Some buf => if zlen buf <=? size then Some (Data buf) else Some ERANGE
    | None => None
    end.
End Hash.
