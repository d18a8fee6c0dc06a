(** The indirect data management layer (bfffs-core/src/idml/idml.rs): records
    with permanent ids on top of the direct layer.

    The RID table and the allocation table are B-trees in the code; here they
    are maps (see C27 for the tree).  Their own nodes, which also live in the
    direct layer, are not modelled, so neither is the cleaning of those nodes.
    The id counter wraps at 2^64 in the code and does not here. *)
From Verif Require Import Common ZMap FSM_Model DDML_Model.

(** idml/mod.rs 42-51: [RidtEntry] *)
Record entry := mkentry { e_drp : drp; e_ref : Z }.

(** idml.rs 27-60: [struct IDML]: the direct layer, the two tables, the id
    counter, and the cached records, by id *)
Record idml := mkidml {
  dd : ddml;
  ridt : list (Z * entry);
  alloct : list (Z * Z);
  next_rid : Z;
  icache : list (Z * list Z)
}.

Definition set_dd d s := mkidml d (ridt s) (alloct s) (next_rid s) (icache s).
Definition set_ridt r s := mkidml (dd s) r (alloct s) (next_rid s) (icache s).
Definition set_alloct a s := mkidml (dd s) (ridt s) a (next_rid s) (icache s).
Definition set_icache c s := mkidml (dd s) (ridt s) (alloct s) (next_rid s) c.

Section IDML.
Context (K : codecs) (v : vdev) (junk : Z -> list Z).

(** idml.rs 250-275: [create]; ids start at 0. *)
Definition idml_create (dk : Z -> list Z) : idml := mkidml (ddml_create v dk) [] [] 0 [].

(** idml.rs 632-665: [put].  The id is consumed even if the write fails. *)
Definition idml_put (b : list Z) (c : compression) (txg : Z) (s : idml) : option (idml * res Z) :=
  let rid := next_rid s in
  let s := mkidml (dd s) (ridt s) (alloct s) (rid + 1) (icache s) in
  let* (d, r) := put_direct K v junk b c txg (dd s) in
  let s := set_dd d s in
  match r with
  | Err e => Some (s, Err e)
  | Ok d =>
      oassert (negb (zm_mem rid (ridt s)))           (* "RID was not unique" *)
      (oassert (negb (zm_mem (d_pba d) (alloct s)))  (* "Double allocate without free" *)
       (Some (mkidml (dd s) (zm_set rid (mkentry d 1) (ridt s)) (zm_set (d_pba d) rid (alloct s))
                     (next_rid s) (zm_set rid b (icache s)), Ok rid)))
  end.

(** idml.rs 562-580: [get], with [get_or_insert!] (see C20) *)
Definition idml_get (rid : Z) (s : idml) : option (idml * res (list Z)) :=
  match zm_get rid (icache s) with
  | Some b => Some (s, Ok b)
  | None =>
      match zm_get rid (ridt s) with
      | None => Some (s, Err ENOENT)
      | Some e =>
          let* r := get_direct K (e_drp e) (dd s) in
          match r with
          | Ok b => Some (set_icache (zm_set rid b (icache s)) s, Ok b)
          | Err x => Some (s, Err x)
          end
      end
  end.

(** idml.rs 555-557: [evict]; also the cache dropping a record by itself *)
Definition idml_evict (rid : Z) (s : idml) : idml := set_icache (zm_del rid (icache s)) s.

(** idml.rs 520-554: [delete] *)
Definition idml_delete (rid : Z) (s : idml) : option idml :=
  let* e := zm_get rid (ridt s) in                   (* "Double delete detected" *)
  if e_ref e - 1 =? 0 then
    let s := idml_evict rid s in
    let* d := delete_direct v (e_drp e) (dd s) in
    oassert (zm_mem (d_pba (e_drp e)) (alloct s))
    (Some (mkidml d (zm_del rid (ridt s)) (zm_del (d_pba (e_drp e)) (alloct s)) (next_rid s) (icache s)))
  else Some (set_ridt (zm_set rid (mkentry (e_drp e) (e_ref e - 1)) (ridt s)) s).

(** idml.rs 582-629: [pop].  If the record cannot be read the tables are left as
    they are (in the code they may or may not have been updated). *)
Definition idml_pop (rid : Z) (s : idml) : option (idml * res (list Z)) :=
  match zm_get rid (ridt s) with
  | None => Some (s, Err ENOENT)
  | Some e =>
      if e_ref e - 1 =? 0 then
        let* (d, r) :=
          (match zm_get rid (icache s) with
           | Some b => let* d := ddml_delete v (e_drp e) (dd s) in Some (d, Ok b)
           | None => pop_direct K v (e_drp e) (dd s)
           end) in
        let s := set_dd d (idml_evict rid s) in
        match r with
        | Err x => Some (s, Err x)
        | Ok b =>
            oassert (zm_mem (d_pba (e_drp e)) (alloct s))
            (Some (mkidml (dd s) (zm_del rid (ridt s)) (zm_del (d_pba (e_drp e)) (alloct s)) (next_rid s) (icache s), Ok b))
        end
      else
        let* r := (match zm_get rid (icache s) with
                   | Some b => Some (Ok b)
                   | None => get_direct K (e_drp e) (dd s)
                   end) in
        match r with
        | Err x => Some (s, Err x)
        | Ok b => Some (set_ridt (zm_set rid (mkentry (e_drp e) (e_ref e - 1)) (ridt s)) s, Ok b)
        end
  end.

(** idml.rs 367-442: the first half of [move_record], up to the write of the new
    copy *)
Definition move_copy (rid : Z) (e : entry) (txg : Z) (s : idml) : option (idml * res drp) :=
  match (if d_compressed (e_drp e) then None else zm_get rid (icache s)) with
  | Some b =>
      let* (d, r) := put_direct K v junk b CNone txg (dd s) in Some (set_dd d s, r)
  | None =>
      let* r := get_direct K (as_uncompressed (e_drp e)) (dd s) in
      match r with
      | Err x => Some (s, Err x)
      | Ok b =>
          let* (d, r) := put_direct K v junk b CNone txg (dd s) in
          Some (set_dd d s, match r with Ok n => Ok (into_compressed n (e_drp e)) | Err x => Err x end)
      end
  end.

(** idml.rs 367-442: [move_record] *)
Definition move_record (rid txg : Z) (s : idml) : option (idml * res drp) :=
  let* e := zm_get rid (ridt s) in                   (* "Inconsistency in alloct" *)
  let* (s, r) := move_copy rid e txg s in
  match r with
  | Err x => Some (s, Err x)
  | Ok n =>
      let* d := delete_direct v (e_drp e) (dd s) in
      Some (mkidml d (zm_set rid (mkentry n (e_ref e)) (ridt s)) (zm_set (d_pba n) rid (alloct s))
                   (next_rid s) (icache s), Ok n)
  end.

Definition in_zone (z p : Z) : bool := (fst (v_lim v z) <=? p) && (p <? snd (v_lim v z)).

(** idml.rs 317-330: [list_indirect_records].  In the code this is a stream read
    while the records are being moved; the moved records are inserted outside
    of the range and nothing is removed from it, so the list is the same. *)
Definition list_indirect_records (z : Z) (s : idml) : list Z :=
  map snd (filter (fun p => in_zone z (fst p)) (alloct s)).

Fixpoint move_all (rids : list Z) (txg : Z) (s : idml) : option (idml * res unit) :=
  match rids with
  | [] => Some (s, Ok tt)
  | rid :: rest =>
      let* (s, r) := move_record rid txg s in
      match r with
      | Err x => Some (s, Err x)
      | Ok _ => move_all rest txg s
      end
  end.

(** idml.rs 190-246: [clean_zone], without the debug assertion and without the
    cleaning of the tables' own nodes *)
Definition clean_zone (z txg : Z) (s : idml) : option (idml * res unit) :=
  let* (s, r) := move_all (list_indirect_records z s) txg s in
  match r with
  | Err x => Some (s, Err x)
  | Ok _ => Some (set_alloct (filter (fun p => negb (in_zone z (fst p))) (alloct s)) s, Ok tt)
  end.

(** idml.rs 86-163: [check_ridt], less the blocks of the tables themselves *)
Definition check_ridt (s : idml) : option bool :=
  let* u := used (dcl (dd s)) in
  let a := forallb (fun p => match zm_get (snd p) (ridt s) with
                             | Some e => d_pba (e_drp e) =? fst p
                             | None => false end) (alloct s) in
  let r := forallb (fun p => zm_mem (d_pba (e_drp (snd p))) (alloct s)) (ridt s) in
  let n := fold_right (fun p a => asize (e_drp (snd p)) + a) 0 (ridt s) in
  Some (a && r && (u =? n)).

(** idml.rs 472-486 [advance_transaction] and 296-308 [flush], for the direct layer *)
Definition idml_advance (s : idml) : idml := set_dd (ddml_advance v junk (dd s)) s.
Definition idml_flush (s : idml) : option idml := let* d := ddml_flush v junk (dd s) in Some (set_dd d s).

End IDML.
