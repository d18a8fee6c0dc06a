(** Model of the PRIME-S declustered RAID layout: bfffs-core/src/raid/prime_s.rs.

    Integers are unbounded [Z] in this file.  The fixed-width arithmetic of the
    code (i16/i32/u8 intermediates) is modelled separately in [PrimeSW_Model.v].
    Rust's [rem_euclid] with a positive divisor is [Z.modulo]; Rust's [/] on the
    non-negative operands that occur here is [Z.div]. *)
From Verif Require Import Common.

(** raid/declust.rs:31-41, [ChunkId]. *)
Inductive chunkid :=
| Data (a : Z)
| Parity (a i : Z).

(** raid/declust.rs:63-69, [Chunkloc]. *)
Record chunkloc := Loc { l_disk : Z; l_offset : Z }.

(** raid/declust.rs:49-53, [ChunkId::address]. *)
Definition address (c : chunkid) : Z := match c with Data a => a | Parity a _ => a end.

(** prime_s.rs:27-55, the loop of [invmod].  State (t, r, newt, newr); the loop
    runs while newr > 0.  Fuel replaces the loop; running out is an explicit
    [None].  The final [debug_assert_eq!(r, 1)] is modelled as [None]. *)
Fixpoint invmod_loop (fuel : nat) (t r newt newr : Z) : option (Z * Z) :=
  if newr >? 0 then
    match fuel with
    | O => None
    | S fu =>
      let q := r / newr in
      invmod_loop fu newt newr (t - newt * q) (r - newr * q)
    end
  else Some (t, r).

Definition invmod_opt (a n : Z) : option Z :=
  match invmod_loop (S (Z.to_nat a)) 0 n 1 a with
  | Some (t, r) => if r =? 1 then Some (if t <? 0 then t + n else t) else None
  | None => None
  end.

(** The value used by the callers; 0 stands for the panic, which
    [invmod_total] (PrimeS_Proofs.v) shows is never reached for the arguments
    that occur. *)
Definition invmod (a n : Z) : Z := match invmod_opt a n with Some t => t | None => 0 end.

(** prime_s.rs:58-74, [is_prime].  The [while i*i <= n] loop with step 6. *)
Fixpoint is_prime_loop (fuel : nat) (i n : Z) : option bool :=
  if i * i <=? n then
    match fuel with
    | O => None
    | S fu => if (n mod i =? 0) || (n mod (i + 2) =? 0) then Some false
              else is_prime_loop fu (i + 6) n
    end
  else Some true.

Definition is_prime (n : Z) : option bool :=
  if n <=? 1 then Some false
  else if n <=? 3 then Some true
  else if (n mod 2 =? 0) || (n mod 3 =? 0) then Some false
  else is_prime_loop (Z.to_nat n) 5 n.

(** prime_s.rs:125-155, [PrimeS]: only the independent fields; the cached ones
    (m, m_inv, datachunks, stripes, depth) are functions below. *)
Record layout := Layout { ln : Z; lk : Z; lf : Z }.

Section Geometry.
Variable L : layout.
Let n := ln L.
Let k := lk L.
Let f := lf L.

(** prime_s.rs:176 *)
Definition gm : Z := lk L - lf L.
(** prime_s.rs:177 *)
Definition gm_inv : Z := invmod gm n.
(** prime_s.rs:178 *)
Definition stripes : Z := n * (n - 1).
(** prime_s.rs:179 *)
Definition datachunks : Z := stripes * gm.
(** prime_s.rs:173 *)
Definition depth : Z := k * (n - 1).

(** prime_s.rs:203-213, [id2rep_and_iter]. *)
Definition id2rep_and_iter (c : chunkid) : Z * Z :=
  (address c / datachunks, (address c mod datachunks) / (gm * n)).

(** prime_s.rs:78-89, [ChunklocInt]. *)
Record cli := Cli { c_a : Z; c_r : Z; c_s : Z; c_y : Z; c_z : Z }.

(** prime_s.rs:185-199, [id2loc_int]. *)
Definition id2loc_int (c : chunkid) : cli :=
  let a := address c mod datachunks in
  let '(r, z) := id2rep_and_iter c in
  let s := a / gm in
  let y := z mod (n - 1) + 1 in
  Cli a r s y z.

(** prime_s.rs:221-240, [offset_within_iteration]. *)
Definition offset_within_iteration (c : cli) (b disk : Z) : Z :=
  let s := c_s c in
  let y_inv := invmod (c_y c) n in
  let o0 := (s * gm + b) / n in
  let o1 := f * c_z c in
  let o2 := fold_left (fun acc j =>
                let cb_stripe := ((disk * y_inv - j) * gm_inv - 1) mod n in
                (if s mod n >? cb_stripe then 1 else 0) + acc)
              (zrange 0 f) 0 in
  o0 + o1 + o2.

(** prime_s.rs:249-257, [offset_within_stripe]. *)
Definition offset_within_stripe (c : chunkid) (a s : Z) : Z :=
  match c with
  | Data _ => a - s * gm
  | Parity _ i => gm + i
  end.

(** prime_s.rs:277-290, [id2loc]. *)
Definition id2loc (c : chunkid) : chunkloc :=
  let x := id2loc_int c in
  let b := offset_within_stripe c (c_a x) (c_s x) in
  let disk := ((c_s x * gm + b) * c_y x) mod n in
  let o3 := c_r x * depth in
  Loc disk (offset_within_iteration x b disk + o3).

(** prime_s.rs:320-324: the FixedBitSet of stripes using this disk within the
    iteration, as the sorted list of its members: [ones()] lists the set bits
    of [0, n) in increasing order. *)
Definition stripe_set (disk y_inv : Z) : list Z :=
  filter (fun t => existsb (fun i => ((disk * y_inv - i) * gm_inv) mod n =? t) (zrange 0 k))
         (zrange 0 n).

(** prime_s.rs:298-341, [loc2id].  [None] models the panic of
    [.nth(..).unwrap()]. *)
Definition loc2id (l : chunkloc) : option chunkid :=
  let r := l_offset l / depth in
  let offset := l_offset l mod depth in
  let z := offset / k in
  let y := z mod (n - 1) + 1 in
  let y_inv := invmod y n in
  let disk := l_disk l in
  let offset_in_iter := offset - k * z in
  match nth_error (stripe_set disk y_inv) (Z.to_nat offset_in_iter) with
  | None => None
  | Some t =>
    let s := t + n * z in
    let b := (disk * y_inv - s * gm) mod n in
    let o := r * datachunks in
    Some (if b >=? gm then Parity (o + s * gm) (b - gm) else Data (o + s * gm + b))
  end.

(** prime_s.rs:343-347, [parallel_read_count]; [div_ceil] on non-negatives. *)
Definition parallel_read_count (c : Z) : Z := (c + n - 1) / n + 1.

(** prime_s.rs:365-379, [PrimeSIter]; the constants f, depth, m, n are those of
    the layout, [it_o] is the vector of per-disk offsets. *)
Record piter := Iter {
  it_a : Z; it_end : chunkid; it_id : chunkid; it_o : list Z; it_r : Z;
  it_stripe : Z; it_stripe_iter : Z; it_y : Z; it_z : Z }.

Definition o_get (o : list Z) (d : Z) : Z := nth (Z.to_nat d) o 0.
Definition o_incr (o : list Z) (d : Z) : list Z := list_upd o (Z.to_nat d) (o_get o d + 1).

(** prime_s.rs:396-405: nested loops adding the contribution of the earlier
    chunks of the iteration. *)
Definition iter_init_o (y z s_z b : Z) : list Z :=
  fold_left (fun o s =>
      let e := if s =? s_z then b else k in
      fold_left (fun o b' => o_incr o (((s * gm + b') * y) mod n)) (zrange 0 e) o)
    (zrange 0 (s_z + 1))
    (repeat (k * z) (Z.to_nat n)).

(** prime_s.rs:388-419, [PrimeSIter::new]. *)
Definition iter_new (start end_ : chunkid) : piter :=
  let c := id2loc_int start in
  let s_z := c_s c mod n in
  let b := offset_within_stripe start (c_a c) (c_s c) in
  Iter (c_a c) end_ start (iter_init_o (c_y c) (c_z c) s_z b) (c_r c)
       (c_s c) s_z (c_y c) (c_z c).

(** prime_s.rs:421-430, [next_elem]. *)
Definition next_elem (it : piter) : Z * Z :=
  let b := offset_within_stripe (it_id it) (it_a it) (it_stripe it) in
  let disk := ((it_stripe it * gm + b) * it_y it) mod n in
  (disk, o_get (it_o it) disk + it_r it * depth).

Definition chunkid_eqb (x y : chunkid) : bool :=
  match x, y with
  | Data a, Data b => a =? b
  | Parity a i, Parity b j => (a =? b) && (i =? j)
  | _, _ => false
  end.

(** prime_s.rs:454-508, [PrimeSIter::next]. *)
Definition iter_next (it : piter) : option ((chunkid * chunkloc) * piter) :=
  if chunkid_eqb (it_id it) (it_end it) then None
  else
    let '(disk, offset) := next_elem it in
    let res := (it_id it, Loc disk offset) in
    let oi := o_incr (it_o it) disk in
    let it' :=
      match it_id it with
      | Data i =>
        if it_a it <? (it_stripe it + 1) * gm - 1
        then Iter (it_a it + 1) (it_end it) (Data (i + 1)) oi (it_r it)
                  (it_stripe it) (it_stripe_iter it) (it_y it) (it_z it)
        else Iter (it_stripe it * gm) (it_end it) (Parity (i - (gm - 1)) 0) oi (it_r it)
                  (it_stripe it) (it_stripe_iter it) (it_y it) (it_z it)
      | Parity a i =>
        if i <? f - 1
        then Iter (it_a it) (it_end it) (Parity a (i + 1)) oi (it_r it)
                  (it_stripe it) (it_stripe_iter it) (it_y it) (it_z it)
        else
          let id' := Data (a + gm) in
          if it_stripe_iter it =? n - 1 then
            if it_z it =? (n - 1) - 1
            then Iter 0 (it_end it) id' (repeat 0 (length (it_o it))) (it_r it + 1) 0 0 1 0
            else Iter (it_a it + gm) (it_end it) id' oi (it_r it) (it_stripe it + 1) 0
                      ((it_z it + 1) mod (n - 1) + 1) (it_z it + 1)
          else Iter (it_a it + gm) (it_end it) id' oi (it_r it) (it_stripe it + 1)
                    (it_stripe_iter it + 1) (it_y it) (it_z it)
      end in
    Some (res, it').

(** Collect up to [fuel] items of the iterator; the boolean says whether the
    iterator reported its end. *)
Fixpoint iter_collect (fuel : nat) (it : piter) : list (chunkid * chunkloc) * bool :=
  match fuel with
  | O => ([], false)
  | S fu => match iter_next it with
            | None => ([], true)
            | Some (x, it') => let '(l, e) := iter_collect fu it' in (x :: l, e)
            end
  end.

End Geometry.
