(** Fixed-width model of prime_s.rs: the constructor, [id2loc] and [loc2id] with
    the integer types the Rust code uses.  [Release] arithmetic wraps (Cargo.toml
    enables no overflow checks for the release profile); [Debug] arithmetic
    panics ([None]) on overflow and checks the [debug_assert!]s. *)
From Verif Require Import Common PrimeS_Model.

Inductive mode := Release | Debug.
Inductive width := I16 | I32 | U8 | U16 | U64.

Definition wmin (w : width) : Z :=
  match w with I16 => -2^15 | I32 => -2^31 | _ => 0 end.
Definition wsize (w : width) : Z :=
  match w with I16 => 2^16 | I32 => 2^32 | U8 => 2^8 | U16 => 2^16 | U64 => 2^64 end.

(** An [as] cast to the type: reduction into its range. *)
Definition cast (w : width) (x : Z) : Z := (x - wmin w) mod (wsize w) + wmin w.
Definition in_range (w : width) (x : Z) : bool := (wmin w <=? x) && (x <? wmin w + wsize w).

(** The result of an arithmetic operation performed in type [w]. *)
Definition ar (md : mode) (w : width) (x : Z) : option Z :=
  match md with
  | Release => Some (cast w x)
  | Debug => if in_range w x then Some x else None
  end.
(** [debug_assert!] *)
Definition dassert (md : mode) (b : bool) : option unit :=
  match md with Release => Some tt | Debug => if b then Some tt else None end.

Definition obind {A B} (x : option A) (g : A -> option B) : option B :=
  match x with Some a => g a | None => None end.
Notation "x <- e ;; g" := (obind e (fun x => g)) (at level 61, e at next level, right associativity).

(** prime_s.rs:125-155 *)
Record primes := PS { wn : Z; wk : Z; wm : Z; wm_inv : Z; wf : Z; wdc : Z; wdepth : Z }.

(** prime_s.rs:166-182, [PrimeS::new].  The [assert!]s are unconditional.  The
    i16 arithmetic inside [invmod] is taken as exact: by the loop invariant
    [r * |newt| + newr * |t| = n] of [invmod_loop_spec] its values never exceed
    n <= 215 in absolute value.  [stripes] is only stored; num_disks as u16 *
    (num_disks as u16 - 1) fits for n <= 215. *)
Definition new (md : mode) (nd k f : Z) : option primes :=
  match is_prime nd with
  | Some true =>
    if (nd <=? 215) && ((1 <? k) && (k <=? nd)) && ((0 <? f) && (f <? k)) then
      depth <- ar md I16 (k * (nd - 1)) ;;
      let k8 := cast U8 k in
      let f8 := cast U8 f in
      m <- ar md U8 (k8 - f8) ;;
      let m_inv := cast U8 (invmod m nd) in
      stripes <- ar md U16 (nd * (nd - 1)) ;;
      dc <- ar md I32 (stripes * m) ;;
      Some (PS (cast U8 nd) k8 m m_inv f8 dc depth)
    else None
  | _ => None
  end.

(** prime_s.rs:203-213 *)
Definition w_id2rep_and_iter (md : mode) (P : primes) (c : chunkid) : option (Z * Z) :=
  let id := address c in
  let rep := id / cast U64 (wdc P) in
  mn <- ar md I32 (wm P * wn P) ;;
  let iter := Z.quot (cast I32 (id mod cast U64 (wdc P))) mn in
  _ <- dassert md (iter <=? 2^15 - 1) ;;
  Some (rep, cast I16 iter).

(** prime_s.rs:185-199 *)
Definition w_id2loc_int (md : mode) (P : primes) (c : chunkid) : option cli :=
  let a0 := address c mod cast U64 (wdc P) in
  _ <- dassert md (a0 <? 2^31 - 1) ;;
  let a := cast I32 a0 in
  rz <- w_id2rep_and_iter md P c ;;
  let '(r, z) := rz in
  let s := Z.quot a (wm P) in
  _ <- dassert md (s <=? 2^15 - 1) ;;
  y <- ar md I16 (z mod (wn P - 1) + 1) ;;
  Some (Cli a r (cast I16 s) y z).

(** prime_s.rs:228-239: the fold of [offset_within_iteration]. *)
Fixpoint w_o2 (md : mode) (P : primes) (s disk y_inv : Z) (js : list Z) (acc : Z) : option Z :=
  match js with
  | [] => Some acc
  | j :: js' =>
    e1 <- ar md I32 (disk * y_inv) ;;
    e2 <- ar md I32 (e1 - j) ;;
    e3 <- ar md I32 (e2 * wm_inv P) ;;
    e4 <- ar md I32 (e3 - 1) ;;
    let cb := e4 mod wn P in
    acc' <- ar md I32 ((if s mod wn P >? cb then 1 else 0) + acc) ;;
    w_o2 md P s disk y_inv js' acc'
  end.

(** prime_s.rs:221-240 *)
Definition w_owi (md : mode) (P : primes) (c : cli) (b disk : Z) : option Z :=
  let s := c_s c in
  let y_inv := invmod (c_y c) (wn P) in
  sm <- ar md I32 (s * wm P) ;;
  smb <- ar md I32 (sm + b) ;;
  let o0 := Z.quot smb (wn P) in
  o1 <- ar md I32 (wf P * c_z c) ;;
  o2 <- w_o2 md P s disk y_inv (zrange 0 (wf P)) 0 ;;
  o01 <- ar md I32 (o0 + o1) ;;
  ar md I32 (o01 + o2).

(** prime_s.rs:249-257 *)
Definition w_ows (md : mode) (c : chunkid) (a s m : Z) : option Z :=
  b <- match c with
       | Data _ => sm <- ar md I16 (s * m) ;; ar md I32 (a - sm)
       | Parity _ i => ar md I32 (m + i)
       end ;;
  _ <- dassert md (b <? 255) ;;
  Some (cast U8 b).

(** prime_s.rs:277-290 *)
Definition w_id2loc (md : mode) (P : primes) (c : chunkid) : option chunkloc :=
  x <- w_id2loc_int md P c ;;
  b <- w_ows md c (c_a x) (c_s x) (wm P) ;;
  _ <- dassert md (b <? wk P) ;;
  sm <- ar md I32 (c_s x * wm P) ;;
  smb <- ar md I32 (sm + b) ;;
  smby <- ar md I32 (smb * c_y x) ;;
  let disk := cast I16 (smby mod wn P) in
  o3 <- ar md U64 (c_r x * cast U64 (wdepth P)) ;;
  owi <- w_owi md P x b disk ;;
  off <- ar md U64 (cast U64 owi + o3) ;;
  Some (Loc disk off).

(** prime_s.rs:298-341.  The i32 products in the bit-set loop are computed with
    [ar]; the set itself as in [PrimeS_Model.stripe_set]. *)
Fixpoint w_set (md : mode) (P : primes) (disk y_inv : Z) (is : list Z) : option (list Z) :=
  match is with
  | [] => Some []
  | i :: is' =>
    e1 <- ar md I32 (disk * y_inv) ;;
    e2 <- ar md I32 (e1 - i) ;;
    e3 <- ar md I32 (e2 * wm_inv P) ;;
    l <- w_set md P disk y_inv is' ;;
    Some (e3 mod wn P :: l)
  end.

Definition w_loc2id (md : mode) (P : primes) (l : chunkloc) : option chunkid :=
  let dep := cast U64 (wdepth P) in
  let r := l_offset l / dep in
  let offset := cast I32 (l_offset l mod dep) in
  let z0 := Z.quot offset (wk P) in
  _ <- dassert md (z0 <? 2^15 - 1) ;;
  let z := cast I16 z0 in
  y <- ar md I16 (z mod (wn P - 1) + 1) ;;
  let y_inv := invmod y (wn P) in
  let disk := l_disk l in
  set <- w_set md P disk y_inv (zrange 0 (wk P)) ;;
  kz <- ar md I32 (wk P * z) ;;
  oii <- ar md I32 (offset - kz) ;;
  t <- nth_error (filter (fun t => existsb (Z.eqb t) set) (zrange 0 (wn P)))
                 (Z.to_nat (cast U64 oii)) ;;
  nz <- ar md I16 (wn P * z) ;;
  s <- ar md I16 (cast I16 t + nz) ;;
  dy <- ar md I32 (disk * y_inv) ;;
  sm <- ar md I32 (s * wm P) ;;
  db <- ar md I32 (dy - sm) ;;
  let b := cast U8 (db mod wn P) in
  o <- ar md U64 (r * cast U64 (wdc P)) ;;
  sm64 <- ar md U64 (cast U64 s * wm P) ;;
  base <- ar md U64 (o + sm64) ;;
  if b >=? wm P then Some (Parity base (b - wm P))
  else a <- ar md U64 (base + b) ;; Some (Data a).
