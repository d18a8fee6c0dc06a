(** The FUSE front end: FuseFs, bfffs/src/bin/bfffsd/fs.rs, with its two caches, on top of the file system of Names_Model.v.
    Below, "bfffsd/fs.rs" is that file and "fs.rs" is bfffs-core/src/fs.rs.  [None] is a panic.  Left out: the requests for
    data, attributes and directory listings, which look their file up in the cache as [Getattr] does and hand it to the file
    system; readdir and readlink; the attributes other than kind and link count; times to live; mutex poisoning. *)
From Verif Require Import Common HTable_Model Names_Model.

(** FileDataMut, fs.rs:330-336, without the inode number, which is its key in the cache.  [lookup_count] is a u64; its overflow
    is not modelled. *)
Record fdata := FData { f_count : Z; f_parent : option Z }.
(** FuseFs, bfffsd/fs.rs:74-92 *)
Record ffs := FFs { base : fs; files : Z -> option fdata; names : Z -> name -> option Z }.
Definition set_base (x : ffs) (s : fs) : ffs := FFs s (files x) (names x).
Definition set_file (x : ffs) (i : Z) (d : option fdata) : ffs := FFs (base x) (upd (files x) i d) (names x).
Definition set_name (x : ffs) (p : Z) (n : name) (i : option Z) : ffs :=
  FFs (base x) (files x) (fun p' n' => if (p' =? p) && name_eqb n' n then i else names x p' n').

(** A reply: an entry or attributes (inode number, whether it is a directory, links), success, or an error *)
Inductive reply := Entry (ino : Z) (isdir : bool) (nlink : Z) | Done | Fail (errno : Z).

(** From<Arc<Fs>>, bfffsd/fs.rs:1144-1158; Fs::root is FileDataMut::new(None, 1), fs.rs:352 *)
Definition fuse_new (s : fs) : ffs := FFs s (upd (fun _ => None) 1 (Some (FData 1 None))) (fun _ _ => None).

(** [files.get(&i).expect(..).handle()]: the file must be cached, and FileDataMut::handle, fs.rs:343, asserts its count *)
Definition handle (x : ffs) (i : Z) : option fdata :=
  match files x i with Some d => if 0 <? f_count d then Some d else None | None => None end.
(** [files.get(&i).map(handle)] *)
Definition handle_opt (x : ffs) (i : Z) : option (option fdata) :=
  match files x i with Some d => if 0 <? f_count d then Some (Some d) else None | None => Some None end.

(** FuseFs::do_getattr, bfffsd/fs.rs:135-170: Fs::getattr gives ENOENT if there is no such object *)
Definition attr (s : fs) (i : Z) : reply :=
  match inodes s i with Some v => Entry i (i_isdir v) (i_nlink v) | None => Fail ENOENT end.

(** FuseFs::cache_file, bfffsd/fs.rs:98-125 *)
Definition cache_file (x : ffs) (p : Z) (n : name) (i : Z) (d : fdata) : option ffs :=
  match names x p n with
  | Some _ => None
  | None =>
      let x := set_name x p n (Some i) in
      Some (set_file x i (Some (match files x i with
                                | Some o => FData (f_count o + f_count d) (f_parent o)
                                | None => d
                                end)))
  end.

Section Ops.
Context (hash : name -> Z) (dhash : Z -> Z).

(** FuseFs::handle_new_entry, bfffsd/fs.rs:186-208, given the new file *)
Definition new_entry (x : ffs) (p : Z) (n : name) (i : Z) (d : fdata) : option (reply * ffs) :=
  match attr (base x) i with
  | Fail e => match inactive dhash (base x) i with Some (_, s) => Some (Fail e, set_base x s) | None => None end
  | r => match cache_file x p n i d with Some x => Some (r, x) | None => None end
  end.

(** Fs::lookup, fs.rs:1469-1512, in directory [p] whose cached data is [pd]; [gp] is the cached data of its parent.  A new
    FileDataMut has count 1, fs.rs:356. *)
Definition fs_lookup (s : fs) (gp : option fdata) (p : Z) (pd : fdata) (n : name) : option (sum (Z * fdata) Z) :=
  match (if name_eqb n DOT then Some (f_parent pd)
         else if name_eqb n DOTDOT then match gp with Some g => Some (f_parent g) | None => None end
         else Some (Some p)) with
  | None => None
  | Some par => match dir_get hash (ents s p) n with
                | Ok (_, (i, isdir)) => Some (inl (i, FData 1 (if isdir then par else None)))
                | NotFound => Some (inr ENOENT)
                | Panic => None
                end
  end.
(** Fs::ilookup, fs.rs:1379-1406 *)
Definition fs_ilookup (s : fs) (i : Z) : option (sum (Z * fdata) Z) :=
  match inodes s i with
  | None => Some (inr ENOENT)
  | Some _ => match dir_get hash (ents s i) DOTDOT with
              | Ok (_, (q, _)) => Some (inl (i, FData 1 (Some q)))
              | NotFound => Some (inl (i, FData 1 None))
              | Panic => None
              end
  end.

(** FuseFs::lookup, bfffsd/fs.rs:471-569, in two parts.  The first reads the caches (lines 477-510); the second waits for the
    file system and updates the caches (lines 511-568).  Other requests may run between the two. *)
Inductive plan :=
| Cached (p : Z) (n : name) (i : Z)                                   (* name and inode are cached *)
| NameOnly (p : Z) (n : name) (gp : option fdata) (pd : fdata)        (* only the name is cached *)
| Uncached (p : Z) (n : name) (gp : option fdata) (pd : fdata)        (* the name is not cached *)
| NoParent (p : Z) (n : name).                                        (* lookup of "." for NFS *)
Definition lookup_begin (x : ffs) (p : Z) (n : name) : option plan :=
  match files x p with
  | None => if name_eqb n DOT then Some (NoParent p n) else None
  | Some pd =>
      match handle x p, match f_parent pd with Some g => handle_opt x g | None => Some None end with
      | Some pd, Some gp =>
          match names x p n with
          | None => Some (Uncached p n gp pd)
          | Some i => match handle_opt x i with
                      | None => None
                      | Some (Some _) => Some (Cached p n i)
                      | Some None => Some (NameOnly p n gp pd)
                      end
          end
      | _, _ => None
      end
  end.
Definition lookup_end (x : ffs) (q : plan) : option (reply * ffs) :=
  match q with
  | Cached p n i =>
      match attr (base x) i with
      | Fail e => Some (Fail e, x)
      | r => match files x i with
             | Some d => Some (r, set_file x i (Some (FData (f_count d + 1) (f_parent d))))
             | None => None
             end
      end
  | NameOnly p n gp pd =>
      match fs_lookup (base x) gp p pd n with
      | None => None
      | Some (inr e) => Some (Fail e, x)
      | Some (inl (i, d)) =>
          match attr (base x) i with
          | Fail e => match inactive dhash (base x) i with Some (_, s) => Some (Fail e, set_base x s) | None => None end
          | r => match files x i with Some _ => None | None => Some (r, set_file x i (Some d)) end
          end
      end
  | Uncached p n gp pd =>
      match fs_lookup (base x) gp p pd n with
      | None => None
      | Some (inr e) => Some (Fail e, x)
      | Some (inl (i, d)) => new_entry x p n i d
      end
  | NoParent p n =>
      match fs_ilookup (base x) p with
      | None => None
      | Some (inr e) => Some (Fail e, x)
      | Some (inl (i, d)) => new_entry x p n i d
      end
  end.
Definition fuse_lookup (x : ffs) (p : Z) (n : name) : option (reply * ffs) :=
  match lookup_begin x p n with Some q => lookup_end x q | None => None end.

(** FuseFs::create, mkdir, mknod and symlink, bfffsd/fs.rs:260-298, 660-679, 681-737 and 1053-1075.  The new FileData of a
    directory knows its parent, fs.rs:634-639 and 673. *)
Definition fuse_create (x : ffs) (p : Z) (n : name) (isdir : bool) : option (reply * ffs) :=
  match handle x p with
  | None => None
  | Some _ =>
      match step hash dhash (base x) (if isdir then Mkdir p n else Create p n) with
      | None => None
      | Some (RErr e, s) => Some (Fail e, set_base x s)
      | Some (ROk i, s) => new_entry (set_base x s) p n i (FData 1 (if isdir then Some p else None))
      end
  end.

(** FuseFs::forget, bfffsd/fs.rs:337-356: [lookup_count -= nlookup] must leave nothing *)
Definition fuse_forget (x : ffs) (i k : Z) : option (reply * ffs) :=
  if i =? 1 then Some (Done, x) else
  match files x i with
  | None => None
  | Some d =>
      if f_count d =? k then
        match inactive dhash (base x) i with
        | Some (_, s) => Some (Done, set_base (set_file x i None) s)
        | None => None
        end
      else None
  end.

(** FuseFs::link, bfffsd/fs.rs:437-469, with cache_name 127-133 *)
Definition fuse_link (x : ffs) (i p : Z) (n : name) : option (reply * ffs) :=
  match handle x p, handle x i with
  | Some _, Some _ =>
      match step hash dhash (base x) (Link p i n) with
      | None => None
      | Some (RErr e, s) => Some (Fail e, set_base x s)
      | Some (ROk _, s) =>
          match attr s i with
          | Fail e => Some (Fail e, set_base x s)
          | r => match names x p n with Some _ => None | None => Some (r, set_name (set_base x s) p n (Some i)) end
          end
      end
  | _, _ => None
  end.

(** FuseFs::unlink, bfffsd/fs.rs:1077-1121 *)
Definition fuse_unlink (x : ffs) (p : Z) (n : name) : option (reply * ffs) :=
  match handle x p, match names x p n with Some i => handle_opt x i | None => Some None end with
  | Some _, Some fd =>
      match step hash dhash (base x) (Unlink p n (match fd with Some _ => true | None => false end)) with
      | None => None
      | Some (RErr e, s) => Some (Fail e, set_base x s)
      | Some (ROk _, s) => Some (Done, set_name (set_base x s) p n None)
      end
  | _, _ => None
  end.

(** FuseFs::rmdir, bfffsd/fs.rs:942-963 *)
Definition fuse_rmdir (x : ffs) (p : Z) (n : name) : option (reply * ffs) :=
  match handle x p with
  | None => None
  | Some _ =>
      match step hash dhash (base x) (Rmdir p n) with
      | None => None
      | Some (RErr e, s) => Some (Fail e, set_base x s)
      | Some (ROk _, s) => Some (Done, set_name (set_base x s) p n None)
      end
  end.

(** FuseFs::rename, bfffsd/fs.rs:856-940.  [fuel] bounds the rounds of the dirloop check ([dirloop] of Names_Model.v); without
    enough of it the result is [None]. *)
Definition reparent (d : fdata) (p : Z) : fdata := FData (f_count d) (match f_parent d with Some _ => Some p | None => None end).
Definition fuse_rename (fuel : nat) (x : ffs) (p : Z) (n : name) (np : Z) (nn : name) : option (reply * ffs) :=
  match names x p n with
  | None => None
  | Some src =>
      match handle x p, handle x np, handle x src with
      | Some _, Some _, Some _ =>
          match dirloop (fun i => option_map f_parent (files x i)) fuel src np with
          | None => None
          | Some Refuse => Some (Fail EINVAL, x)
          | Some Accept =>
              match step hash dhash (base x) (Rename p src n np (names x np nn) nn) with
              | None => None
              | Some (RErr e, s) => Some (Fail e, set_base x s)
              | Some (ROk i, s) =>
                  if i =? src then
                    let x := set_name (set_base x s) np nn None in
                    match names x p n with
                    | Some c =>
                        if i =? c then
                          let x := set_name (set_name x p n None) np nn (Some c) in
                          Some (Done, match files x i with Some d => set_file x i (Some (reparent d np)) | None => x end)
                        else None
                    | None => None
                    end
                  else None
              end
          end
      | _, _, _ => None
      end
  end.

(** The requests of the kernel *)
Inductive req :=
| Lookup (p : Z) (n : name)
| MkFile (p : Z) (n : name)
| MkDir (p : Z) (n : name)
| MkLink (i p : Z) (n : name)
| Remove (p : Z) (n : name)
| RmDir (p : Z) (n : name)
| Move (p : Z) (n : name) (np : Z) (nn : name)
| Forget (i k : Z)
| Getattr (i : Z).
Definition fstep (fuel : nat) (x : ffs) (q : req) : option (reply * ffs) :=
  match q with
  | Lookup p n => fuse_lookup x p n
  | MkFile p n => fuse_create x p n false
  | MkDir p n => fuse_create x p n true
  | MkLink i p n => fuse_link x i p n
  | Remove p n => fuse_unlink x p n
  | RmDir p n => fuse_rmdir x p n
  | Move p n np nn => fuse_rename fuel x p n np nn
  | Forget i k => fuse_forget x i k
  | Getattr i => match handle x i with Some _ => Some (attr (base x) i, x) | None => None end
  end.
End Ops.
