(** The erasure codec: bfffs-core/src/raid/codec.rs on top of bfffs-isa-l/src/lib.rs.

    ISA-L is a C library outside /repo.  Its functions are modelled by what bfffs-isa-l/src/lib.rs says they compute: arithmetic
    in GF(2^8) (polynomial 0x11d; the golden matrices of codec.rs:488-524 are checked against this in Codec_Props.v), matrix
    times vector for [ec_encode_data], and Gauss-Jordan elimination for [gf_invert_matrix].  The expanded tables of
    [ec_init_tables] are not modelled: a table stands for the matrix it was made from.
    A column is the list of its bytes.  A Rust panic is [None]. *)
From Verif Require Import Common SG_Model.

(** * GF(2^8) on integers 0..255, by powers of the generator 2 as in ISA-L's gf_mul and gf_inv *)
Definition xtime (z : Z) : Z := if 2 * z <? 256 then 2 * z else Z.lxor (2 * z) 285.
Fixpoint iterate {A} (n : nat) (f : A -> A) (x : A) : A := match n with O => x | S m => f (iterate m f x) end.
Fixpoint powers (n : nat) (z : Z) : list Z := match n with O => [] | S m => z :: powers m (xtime z) end.
Definition exp_tab : list Z := Eval vm_compute in powers 255 1.
Fixpoint index_of (z : Z) (l : list Z) : nat := match l with [] => O | x :: r => if x =? z then O else S (index_of z r) end.
Definition log_tab : list nat := Eval vm_compute in map (fun z => index_of z exp_tab) (zseq 0 256).
Definition gexp (n : nat) : Z := nth n exp_tab 0.
Definition glog (z : Z) : nat := nth (Z.to_nat z) log_tab O.
Definition mulZ (a b : Z) : Z :=
  if (a =? 0) || (b =? 0) then 0
  else let i := (glog a + glog b)%nat in gexp (if (254 <? i)%nat then i - 255 else i).
Definition invZ (a : Z) : Z := if a =? 0 then 0 else gexp (let i := (255 - glog a)%nat in if (i =? 255)%nat then O else i).

(** the type of bytes *)
Definition byteb (z : Z) : bool := (0 <=? z) && (z <? 256).
Record gf := GF { gz : Z; gok : byteb gz = true }.
Definition of_Z (z : Z) : gf.
Proof. refine (GF (z mod 256) _). unfold byteb. pose proof (Z.mod_pos_bound z 256 ltac:(lia)). lia. Defined.
Definition g0 : gf := of_Z 0.
Definition g1 : gf := of_Z 1.
Definition gadd (a b : gf) : gf := of_Z (Z.lxor (gz a) (gz b)).
Definition gmul (a b : gf) : gf := of_Z (mulZ (gz a) (gz b)).
Definition ginv (a : gf) : gf := of_Z (invZ (gz a)).
Definition gnz (a : gf) : bool := negb (gz a =? 0).

(** * Matrices over any field; a matrix is the list of its rows *)
Section Mat.
Context {F : Type} (f0 f1 : F) (fadd fsub fmul : F -> F -> F) (finv : F -> F) (nz : F -> bool).

Fixpoint dot (u v : list F) : F :=
  match u, v with
  | a :: u', b :: v' => fadd (fmul a b) (dot u' v')
  | _, _ => f0
  end.
Definition vscale (c : F) (v : list F) : list F := map (fmul c) v.
Fixpoint vsub (u v : list F) : list F :=
  match u, v with
  | a :: u', b :: v' => fsub a b :: vsub u' v'
  | _, _ => []
  end.
Definition unit_row (n i : nat) : list F := map (fun j => if (j =? i)%nat then f1 else f0) (seq 0 n).
Definition ident (n : nat) : list (list F) := map (unit_row n) (seq 0 n).

Notation row := (list F * list F)%type.
Fixpoint mapi {A B} (i : nat) (g : nat -> A -> B) (l : list A) : list B :=
  match l with [] => [] | x :: r => g i x :: mapi (S i) g r end.
(** first row from [i] on with a nonzero in column [i] *)
Fixpoint find_pivot (i idx : nat) (rows : list row) : option nat :=
  match rows with
  | [] => None
  | r :: rest => if (i <=? idx)%nat && nz (nth i (fst r) f0) then Some idx else find_pivot i (S idx) rest
  end.
Definition swap (i j : nat) (rows : list row) : list row :=
  let ri := nth i rows ([], []) in let rj := nth j rows ([], []) in list_upd (list_upd rows i rj) j ri.
(** ISA-L gf_invert_matrix (called by codec.rs:236 through bfffs-isa-l/src/lib.rs:226-244), one column: find a pivot, swap it
    into place, scale its row, and clear the column in the other rows *)
Definition gj_step (rows : list row) (i : nat) : option (list row) :=
  match find_pivot i 0 rows with
  | None => None
  | Some j =>
      let rows1 := swap i j rows in
      let '(a, b) := nth i rows1 ([], []) in
      let t := finv (nth i a f0) in
      let ri := (vscale t a, vscale t b) in
      Some (mapi 0 (fun idx r => if (idx =? i)%nat then ri
                                 else let c := nth i (fst r) f0 in (vsub (fst r) (vscale c (fst ri)), vsub (snd r) (vscale c (snd ri)))) rows1)
  end.
Fixpoint gj (rows : list row) (cols : list nat) : option (list row) :=
  match cols with
  | [] => Some rows
  | i :: r => match gj_step rows i with Some rows' => gj rows' r | None => None end
  end.
Definition invert (m : list (list F)) : option (list (list F)) :=
  let n := length m in
  match gj (combine m (ident n)) (seq 0 n) with Some rows => Some (map snd rows) | None => None end.

(** ec_encode_data, bfffs-isa-l/src/lib.rs:46-68: output byte [p] of a row is the row times byte [p] of the inputs *)
Definition ec_encode_data (len : nat) (rows : list (list F)) (cols : list (list F)) : list (list F) :=
  map (fun r => map (fun p => dot r (map (fun c => nth p c f0) cols)) (seq 0 len)) rows.

(** the loop of mk_decode_tables that selects [k] healthy rows, codec.rs:219-233; running past the matrix is a panic *)
Fixpoint healthy (er : nat -> bool) (cand : list nat) (n : nat) : option (list nat) :=
  match n with
  | O => Some []
  | S n' => match cand with
            | [] => None
            | r :: rest => if er r then healthy er rest n
                           else match healthy er rest n' with Some l => Some (r :: l) | None => None end
            end
  end.
(** mk_decode_tables, codec.rs:213-252: the rows of the inverse for the missing data columns *)
Definition decode_rows (enc : list (list F)) (m k : nat) (er : nat -> bool) : option (list (list F)) :=
  match healthy er (seq 0 m) k with
  | None => None
  | Some hs =>
      match invert (map (fun r => nth r enc []) hs) with
      | None => None
      | Some dec => Some (map (fun r => nth r dec []) (filter er (seq 0 k)))
      end
  end.
End Mat.

(** * The codec over bytes *)
Definition cols_gf (cols : list (list Z)) : list (list gf) := map (map of_Z) cols.
Definition cols_Z (cols : list (list gf)) : list (list Z) := map (map gz) cols.

(** Codec::new, codec.rs:39-64: the rows of the encoding matrix.  gf_gen_rs_matrix for one parity column is a row of ones;
    gf_gen_cauchy1_matrix has 1/(i xor j) *)
Definition parity_row (k f i : nat) : list gf :=
  if (f =? 1)%nat then repeat g1 k
  else map (fun j => ginv (gadd (of_Z (Z.of_nat i)) (of_Z (Z.of_nat j)))) (seq 0 k).
Definition enc_matrix (m f : nat) : list (list gf) :=
  let k := (m - f)%nat in ident g0 g1 k ++ map (parity_row k f) (seq k f).
(** Codec::encode, codec.rs:134-139 *)
Definition encode (m f len : nat) (data : list (list Z)) : list (list Z) :=
  let k := (m - f)%nat in cols_Z (ec_encode_data g0 gadd gmul len (skipn k (enc_matrix m f)) (cols_gf data)).
(** Codec::decode, codec.rs:112-121; the assertions at 116 and 117 are [None] (the number of buffers supplied, [nmissing]) *)
Definition decode (m f len : nat) (surviving : list (list Z)) (nmissing : nat) (er : nat -> bool) : option (list (list Z)) :=
  let k := (m - f)%nat in
  let errs := length (filter er (seq 0 k)) in
  if (errs =? 0)%nat || negb (errs =? nmissing)%nat || negb (length surviving =? k)%nat then None
  else match decode_rows g0 g1 gadd gmul ginv gnz (enc_matrix m f) m k er with
       | None => None
       | Some rows => Some (cols_Z (ec_encode_data g0 gadd gmul len rows (cols_gf surviving)))
       end.

(** Codec::encodev, codec.rs:156-181.  The parity written so far is the second component; the minimum of no cursors and a
    [None] from a cursor are panics *)
Definition min_list (l : list Z) : option Z := match l with [] => None | x :: r => Some (fold_left Z.min r x) end.
Fixpoint next_all (n : Z) (cs : list cursor) : option (list (list Z) * list cursor) :=
  match cs with
  | [] => Some ([], [])
  | c :: r => match cursor_next c n with
              | (None, _) => None
              | (Some v, c') => match next_all n r with Some (vs, cs') => Some (v :: vs, c' :: cs') | None => None end
              end
  end.
Fixpoint zip_app (a b : list (list Z)) : list (list Z) :=
  match a, b with x :: a', y :: b' => (x ++ y) :: zip_app a' b' | _, _ => [] end.
Fixpoint encodev_loop (fuel : nat) (m f : nat) (cs : list cursor) (l len : Z) (out : list (list Z)) : option (list (list Z)) :=
  if l <? len then
    match fuel with
    | O => None
    | S fu =>
        match min_list (map peek_len cs) with
        | None => None
        | Some ncl =>
            match next_all ncl cs with
            | None => None
            | Some (refs, cs') => encodev_loop fu m f cs' (l + ncl) len (zip_app out (encode m f (Z.to_nat ncl) refs))
            end
        end
    end
  else Some out.
Definition encodev (m f : nat) (len : Z) (data : list sglist) : option (list (list Z)) :=
  encodev_loop (Z.to_nat len) m f (map cursor_from data) 0 len (repeat [] f).

(** Codec::encode_update, codec.rs:201-207: add one data column's contribution to the parity *)
Definition encode_update (m f len : nat) (col : list Z) (parity : list (list Z)) (idx : nat) : list (list Z) :=
  let k := (m - f)%nat in
  map (fun rp : list gf * list Z => map (fun p => Z.lxor (nth p (snd rp) 0) (gz (gmul (nth idx (fst rp) g0) (of_Z (nth p col 0))))) (seq 0 len))
      (combine (skipn k (enc_matrix m f)) parity).
