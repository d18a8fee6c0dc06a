(** Vocabulary for the properties of a pool (C79-C82): histories of a pool and what its clients hold.  Nothing here refers to the free-space maps. *)
From Verif Require Import Common ZMap FSM_Model FSM_Spec Pool_Model.
From Coq Require Import Permutation.
Open Scope Z_scope.

(** The clusters of a pool: sizes are positive and below 2^52 blocks (2^64 bytes), cover the zones, and so on. *)
Definition capacity (v : vdev) : Z := zsum 0 (v_zones v) (fun z => snd (v_lim v z) - fst (v_lim v z)).
Record pgeometry (gs : list cgeo) : Prop := {
  pg_some : gs <> [];
  pg_v : forall g, In g gs -> geometry (cg_v g);
  pg_size : forall g, In g gs -> 0 < cg_size g <= 2^52 /\ capacity (cg_v g) <= cg_size g;
  pg_opt : forall g, In g gs -> 0 < cg_opt g < 2^32
}.

(** A range of blocks of a pool: the number of the cluster, and the first block and the number of blocks there. *)
Notation pext := (nat * extent)%type.

(** What happens to a pool. *)
Inductive pev :=
| PWrite (space txg : Z)        (* a client writes *)
| PDone (k : nat) (ok : bool)   (* the [k]-th of the writes under way finishes, or fails *)
| PRead (i : nat)               (* a client reads from cluster [i] *)
| PReadDone (k : nat)           (* the [k]-th of the reads under way finishes *)
| PFree (x : pext)              (* a client frees what it holds *)
| PAdvance                      (* a transaction ends *)
| PSync                         (* everything is flushed *)
| PRemount.                     (* the pool is exported and imported again *)

(** The pool together with the writes that are under way, the blocks that clients hold, the blocks of writes that failed since the pool was last
    imported, those of earlier ones, the reads that are under way, and the calls that the vdevs have received. *)
Record world := World {
  w_p : pool; w_fly : list pext; w_held : list pext; w_lost : list pext; w_lost0 : list pext; w_reads : list nat;
  w_clean : bool; w_tr : list (nat * vop) }.

Fixpoint drop_nth {A} (k : nat) (l : list A) : list A :=
  match l, k with [], _ => [] | _ :: r, O => r | x :: r, S k => x :: drop_nth k r end.
Definition pext_eqb (a b : pext) : bool := Nat.eqb (fst a) (fst b) && extent_eqb (snd a) (snd b).
Fixpoint remove_ext (e : pext) (l : list pext) : list pext :=
  match l with [] => [] | x :: r => if pext_eqb e x then r else x :: remove_ext e r end.

Section Hist.
Context (gs : list cgeo).

(** What clients may do: write something, free what they hold, and export the pool only when nothing is under way and all is flushed. *)
Definition plegal (w : world) (e : pev) : Prop :=
  match e with
  | PWrite space txg => 0 < space < 2^32 /\ 0 <= txg < TXG_MAX
  | PDone k _ => (k < length (w_fly w))%nat
  | PRead i => (i < length gs)%nat
  | PReadDone k => (k < length (w_reads w))%nat
  | PFree x => In x (w_held w)
  | PAdvance | PSync => True
  | PRemount => w_clean w = true /\ w_fly w = [] /\ w_reads w = []
  end.

(** The result: [None] is a panic, or an event that is not [plegal]. *)
Definition pstep (w : world) (e : pev) : option (world * option (nat * Z)) :=
  let '(World p fly held lost lost0 reads clean tr) := w in
  match e with
  | PWrite space txg =>
      let* (p, r, o) := pool_write gs space txg p in
      Some (World p (match r with Some (i, lba) => (i, (lba, space)) :: fly | None => fly end) held lost lost0 reads false (tr ++ o), r)
  | PDone k ok =>
      let* x := nth_error fly k in
      Some (World (pool_write_done (fst x) (snd (snd x)) ok p) (drop_nth k fly)
              (if ok then x :: held else held) (if ok then lost else x :: lost) lost0 reads clean tr, None)
  | PRead i => Some (World (pool_read i p) fly held lost lost0 (i :: reads) clean tr, None)
  | PReadDone k =>
      let* i := nth_error reads k in
      Some (World (pool_read_done i p) fly held lost lost0 (drop_nth k reads) clean tr, None)
  | PFree x =>
      let* p := pool_free gs (fst x) (fst (snd x)) (snd (snd x)) p in
      Some (World p fly (remove_ext x held) lost lost0 reads false tr, None)
  | PAdvance => let* (p, o) := pool_advance gs p in Some (World p fly held lost lost0 reads false (tr ++ o), None)
  | PSync => let* (p, o) := pool_sync gs p in Some (World p fly held lost lost0 reads true (tr ++ o), None)
  | PRemount => let* (p, o) := pool_open gs p in Some (World p fly held [] (lost ++ lost0) reads true (tr ++ o), None)
  end.

Inductive preach : world -> Prop :=
| preach_init : preach (World (pool_create gs) [] [] [] [] [] false [])
| preach_step w e w' r : preach w -> plegal w e -> pstep w e = Some (w', r) -> preach w'.

(** Number of blocks. *)
Definition blocks (l : list pext) : Z := fold_right (fun x a => snd (snd x) + a) 0 l.

(** What belongs to cluster [i]. *)
Definition at_cluster {A} (i : nat) (l : list (nat * A)) : list A := map snd (filter (fun x => Nat.eqb (fst x) i) l).

(** All blocks that are written in a pool and not freed *)
Definition written (w : world) : list pext := w_fly w ++ w_held w ++ w_lost w ++ w_lost0 w.
End Hist.
