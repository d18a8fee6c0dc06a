(** Scatter/gather lists: raid/sgcursor.rs, util.rs and the column splitting of
    raid/vdev_raid.rs.  An IoVec is the list of its bytes; an SGList is a list of
    IoVecs.  divbuf's reference counting is not modelled.  A Rust panic is
    [None]. *)
From Verif Require Import Common.

Definition iovec := list Z.
Definition sglist := list iovec.

(** raid/sgcursor.rs:17-21 *)
Record cursor := Cursor { cu_sg : sglist; cu_si : nat; cu_vi : Z }.

(** raid/sgcursor.rs:64-68 *)
Definition cursor_from (s : sglist) : cursor := Cursor s 0 0.

(** raid/sgcursor.rs:55-61 *)
Definition peek_len (c : cursor) : Z :=
  match nth_error (cu_sg c) (cu_si c) with
  | Some v => zlen v - cu_vi c
  | None => 0
  end.

(** raid/sgcursor.rs:28-49 *)
Definition cursor_next (c : cursor) (max : Z) : option iovec * cursor :=
  let ncl := peek_len c in
  let cur := nth (cu_si c) (cu_sg c) [] in
  if ncl =? 0 then (None, c)
  else if max <? ncl then
    let b := cu_vi c in
    (Some (ztake max (zdrop b cur)), Cursor (cu_sg c) (cu_si c) (b + max))
  else if cu_vi c >? 0 then
    (Some (zdrop (cu_vi c) cur), Cursor (cu_sg c) (S (cu_si c)) 0)
  else (Some cur, Cursor (cu_sg c) (S (cu_si c)) (cu_vi c)).

(** A client issuing the requests [ms] in turn. *)
Fixpoint cursor_run (c : cursor) (ms : list Z) : list (option iovec) * cursor :=
  match ms with
  | [] => ([], c)
  | m :: ms' =>
    let '(r, c1) := cursor_next c m in
    let '(rs, c2) := cursor_run c1 ms' in
    (r :: rs, c2)
  end.

(** raid/vdev_raid.rs:1872-1878: collect one column of [col_len] bytes.  Fuel
    bounds the while loop; running out, or the [unwrap] failing, is [None]. *)
Fixpoint one_col (fuel : nat) (c : cursor) (l col_len : Z) : option (sglist * cursor) :=
  if l <? col_len then
    match fuel with
    | O => None
    | S fu =>
      match cursor_next c (col_len - l) with
      | (None, _) => None
      | (Some split, c') =>
        match one_col fu c' (l + zlen split) col_len with
        | None => None
        | Some (col, c'') => Some (split :: col, c'')
        end
      end
    end
  else Some ([], c).

(** raid/vdev_raid.rs:1869-1881: all [m] columns. *)
Fixpoint all_cols (fuel : nat) (m : nat) (c : cursor) (col_len : Z) : option (list sglist * cursor) :=
  match m with
  | O => Some ([], c)
  | S m' =>
    match one_col fuel c 0 col_len with
    | None => None
    | Some (col, c') =>
      match all_cols fuel m' c' col_len with
      | None => None
      | Some (cols, c'') => Some (col :: cols, c'')
      end
    end
  end.

(** util.rs:16,19 *)
Definition BYTES_PER_LBA : Z := 4096.
Definition ZERO_REGION_LEN : Z := 8 * BYTES_PER_LBA.
Definition zero_region : iovec := zrepeat 0 ZERO_REGION_LEN.

Definition div_ceil (a b : Z) : Z := (a + b - 1) / b.

(** util.rs:77, the test that decides whether to pad. *)
Definition unaligned (db : iovec) : bool := negb (zlen db mod BYTES_PER_LBA =? 0).

(** util.rs:87-114, the loop of [copy_and_pad_sglist].  [acc] is the
    accumulator, [out] the output list. *)
Fixpoint pad_loop (bufs : sglist) (acc : option iovec) (out : sglist) : option (option iovec * sglist) :=
  match bufs with
  | [] => Some (acc, out)
  | db :: rest =>
    if zlen db mod BYTES_PER_LBA =? 0 then
      match acc with
      | Some _ => None                        (* assert!(accumulator.is_none()) *)
      | None => pad_loop rest None (out ++ [db])
      end
    else
      match acc with
      | Some a =>
        if zlen db >? BYTES_PER_LBA then None (* unimplemented!() *)
        else
          let a' := a ++ db in
          if zlen a' mod BYTES_PER_LBA =? 0
          then pad_loop rest None (out ++ [a'])
          else pad_loop rest (Some a') out
      | None =>
        if zlen db >? BYTES_PER_LBA then
          let wlen := BYTES_PER_LBA * (zlen db / BYTES_PER_LBA) in
          pad_loop rest (Some (zdrop wlen db)) (out ++ [ztake wlen db])
        else pad_loop rest (Some db) out
      end
  end.

(** util.rs:76-128 *)
Definition copy_and_pad_sglist (bufs : sglist) : option sglist :=
  if existsb unaligned bufs then
    match pad_loop bufs None [] with
    | None => None
    | Some (None, out) => Some out
    | Some (Some a, out) =>
      let l := div_ceil (zlen a) BYTES_PER_LBA * BYTES_PER_LBA in
      Some (out ++ [a ++ zrepeat 0 (l - zlen a)])
    end
  else Some bufs.

(** util.rs:131-137 *)
Definition sglist_len (s : sglist) : Z := fold_left (fun acc b => acc + zlen b) s 0.

(** util.rs:140-150.  [zero_bufs - 1] underflows for [len = 0]: [None]. *)
Definition zero_sglist (len : Z) : option sglist :=
  let zero_bufs := div_ceil len ZERO_REGION_LEN in
  if zero_bufs <? 1 then None
  else Some (repeat zero_region (Z.to_nat (zero_bufs - 1)) ++
             [ztake (len - (zero_bufs - 1) * ZERO_REGION_LEN) zero_region]).
