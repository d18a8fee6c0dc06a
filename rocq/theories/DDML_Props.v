(** C49, C50, C66: records at physical addresses. *)
From Coq Require Import Permutation.
From Verif Require Import Common ZMap FSM_Model FSM_Spec FSM_Proofs FSM_Inv FSM_Props DDML_Model DDML_Proofs.

(** * C49: compression *)

(** [codecs_ok] (DDML_Proofs.v): the compression libraries invert each other on
    whole buffers, and shuffling is a bijection that keeps the length.
    [comp_ok]: the type size fits in a non-zero byte. *)

(** What is read back from the padded blocks of a record is what was written,
    whatever compression was asked for. *)
Theorem C49_read_back K c b p rc :
  codecs_ok K -> comp_ok c -> 0 < zlen b < U32MAX ->
  let (cb, c') := compress K c b in
  ddml_read K (mkdrp p (is_compressed c') (zlen b) (zlen cb) (ck K cb)) (Ok (pad cb)) rc = Some (Ok b).
Proof.
  intros OK C L. pose proof (compress_ok K OK c b C L) as H. destruct (compress K c b) as [cb c'].
  destruct H as (_ & _ & D). unfold ddml_read. cbn [d_csize d_ck]. rewrite pad_take, Z.eqb_refl. exact (D p).
Qed.

(** Compression is applied only if it saves at least one block; a record of at
    most one block is stored as it is; and nothing grows. *)
Theorem C49_only_if_it_saves K c b :
  (fst (compress K c b) = b /\ snd (compress K c b) = CNone) \/
  (snd (compress K c b) = c /\ c <> CNone /\ zlen b > BPL /\
   div_ceil (zlen (fst (compress K c b))) BPL < div_ceil (zlen b) BPL /\ zlen (fst (compress K c b)) < zlen b).
Proof.
  destruct (compress_cases K c b) as [-> | (N & B & S & ->)]; cbn [fst snd]; [now left|right].
  repeat split; auto; [lia|].
  pose proof (div_ceil_bounds (zlen (squeeze K c b ++ tag_bytes c)) BPL BPL_pos (zlen_nonneg _)).
  pose proof (div_ceil_bounds (zlen b) BPL BPL_pos (zlen_nonneg _)). unfold BPL in *. lia.
Qed.

(** A record with a damaged compression tag, or too short to hold one, never
    decompresses silently: the result is data from the decoder named by the
    tag, an integrity error, or (shorter than a tag) a panic. *)
Theorem C49_bad_tag_rejected K b n :
  TAGSIZE <= zlen b -> tag_read (zdrop (zlen b - TAGSIZE) b) = None -> decompress K b n = Some (Err EINTEGRITY).
Proof.
  intros L T. unfold decompress. replace (TAGSIZE <=? zlen b) with true by lia. cbn [oassert]. now rewrite T.
Qed.

(** A toy library: runs of one byte are compressed, the checksum is a polynomial. *)
Definition toy_c (b : list Z) : list Z :=
  match b with
  | x :: r => if forallb (Z.eqb x) r then [0; x; zlen b] else 1 :: b
  | [] => [1]
  end.
Definition toy_d (b : list Z) (n : Z) : option (list Z) :=
  match b with
  | 0 :: x :: m :: [] => if m =? n then Some (zrepeat x m) else None
  | 1 :: r => if zlen r =? n then Some r else None
  | _ => None
  end.
Definition toy : codecs := {|
  lz4_c := toy_c; lz4_d := toy_d; zstd_c := toy_c; zstd_d := toy_d;
  shuf := fun _ => map Z.opp; unshuf := fun _ => map Z.opp;
  ck := fun b => fold_left (fun a x => (31 * a + x + 7) mod 2^64) b 1 |}.

Lemma all_eq_repeat x r : forallb (Z.eqb x) r = true -> r = repeat x (length r).
Proof.
  induction r as [|y r IH]; [reflexivity|]. cbn [forallb length repeat]. intros H. apply andb_prop in H.
  destruct H as [H1 H2]. apply Z.eqb_eq in H1. subst. f_equal. auto.
Qed.

Lemma toy_back b : toy_d (toy_c b) (zlen b) = Some b.
Proof.
  destruct b as [|x r]; [reflexivity|]. unfold toy_c. destruct (forallb (Z.eqb x) r) eqn:E.
  - unfold toy_d. rewrite Z.eqb_refl. f_equal. unfold zrepeat, zlen. rewrite Nat2Z.id. cbn [length repeat]. f_equal.
    symmetry. now apply all_eq_repeat.
  - unfold toy_d. now rewrite Z.eqb_refl.
Qed.

Lemma toy_ok : codecs_ok toy.
Proof.
  constructor; cbn; intros; try apply toy_back.
  - induction b as [|x b IH]; [reflexivity|]. cbn [map]. now rewrite Z.opp_involutive, IH.
  - unfold zlen. now rewrite map_length.
Qed.

(** Two blocks of the same byte take one when compressed, and come back. *)
Example C49_example :
  let b := zrepeat 7 8192 in
  snd (compress toy (CZstd (Some 4)) b) = CZstd (Some 4) /\ zlen (fst (compress toy (CZstd (Some 4)) b)) = 8 /\
  decompress toy (fst (compress toy (CZstd (Some 4)) b)) 8192 = Some (Ok b).
Proof. vm_compute. repeat split. Qed.

(** * C50: damaged records *)

(** No read returns data whose checksum does not match the record pointer:
    either the first copy's first [d_csize] bytes match, or some reconstruction
    does, and the data is that copy, decompressed if the record is. *)
Theorem C50_returned_data_matches K d first recons b :
  ddml_read K d first recons = Some (Ok b) ->
  exists st, ck K st = d_ck d /\
    ((exists buf, first = Ok buf /\ st = ztake (d_csize d) buf) \/ (exists rs, recons = Ok rs /\ In st rs)) /\
    (if d_compressed d then decompress K st (d_lsize d) = Some (Ok b) else b = st).
Proof.
  unfold ddml_read. destruct first as [buf|e]; [|discriminate].
  destruct (ck K (ztake (d_csize d) buf) =? d_ck d) eqn:E.
  - intros H. exists (ztake (d_csize d) buf). apply Z.eqb_eq in E. split; [exact E|]. split; [left; eauto|].
    destruct (d_compressed d); [exact H|]. congruence.
  - destruct recons as [rs|e]; [|discriminate]. intros H.
    assert (X : exists st, ck K st = d_ck d /\ In st rs /\
              (if d_compressed d then decompress K st (d_lsize d) = Some (Ok b) else b = st)).
    { clear E. induction rs as [|r rs IH]; cbn [try_recons] in H; [discriminate|].
      destruct (ck K r =? d_ck d) eqn:E.
      - apply Z.eqb_eq in E. destruct (d_compressed d) eqn:Ed.
        + destruct (decompress K r (d_lsize d)) as [[x|e]|] eqn:Ex; cbn [obind] in H; [| |discriminate].
          * exists r. injection H as ->. split; [exact E|]. split; [now left|exact Ex].
          * destruct (IH H) as (st & A & B & C). exists st. split; [exact A|]. split; [now right|exact C].
        + destruct (zlen r =? d_csize d); cbn [oassert] in H; [|discriminate]. exists r. split; [exact E|]. split; [now left|congruence].
      - destruct (IH H) as (st & A & B & C). exists st. split; [exact A|]. split; [now right|exact C]. }
    destruct X as (st & A & B & C). exists st. split; [exact A|]. split; [right; eauto|exact C].
Qed.

(** What a mirror's disks deliver for a record: each present disk either fails
    or delivers [asize] blocks.  [good] is what was written. *)
Definition copies_of (d : drp) (good : list Z) (l : list (res (list Z))) : Prop :=
  Forall (fun r => match r with Ok x => zlen x = asize d * BPL | Err _ => True end) l /\ In (Ok (pad good)) l.

(** No damaged copy happens to have the checksum of the record. *)
Definition no_collision (K : codecs) (d : drp) (good : list Z) (x : list Z) : Prop :=
  ck K (ztake (d_csize d) x) = d_ck d -> ztake (d_csize d) x = good.

(** A record that fills its blocks is read correctly from a mirror of at least
    two present disks, as long as one of them still has it, whatever the disk
    read first delivered.

    The full claim -- for records of every size -- is false, see
    [C50_partial_block_refuted]. *)
Theorem C50_mirror_heals_partial K d good buf l b :
  zlen good = d_csize d -> d_csize d mod BPL = 0 -> ck K good = d_ck d ->
  (if d_compressed d then decompress K good (d_lsize d) = Some (Ok b) else b = good) ->
  2 <= zlen l -> copies_of d good l -> zlen buf = asize d * BPL ->
  no_collision K d good buf -> (forall x, In (Ok x) l -> no_collision K d good x) ->
  ddml_read K d (Ok buf) (mirror_read_long l) = Some (Ok b).
Proof.
  intros L M C D L2 [F IN] LB NB NC. unfold ddml_read.
  destruct (ck K (ztake (d_csize d) buf) =? d_ck d) eqn:E.
  - apply Z.eqb_eq in E. rewrite (NB E). destruct (d_compressed d); [exact D|congruence].
  - unfold mirror_read_long. replace (zlen l <=? 1) with false by lia.
    set (oks := flat_map _ l).
    assert (MEM : forall x, In x oks <-> In (Ok x) l).
    { intros x. unfold oks. rewrite in_flat_map. split.
      - intros (r & Hr & Hx). destruct r as [y|e]; cbn in Hx; [destruct Hx as [->|[]]; exact Hr|contradiction].
      - intros H. exists (Ok x). split; [exact H|now left]. }
    assert (AS : asize d * BPL = d_csize d).
    { pose proof (pad_exact good ltac:(rewrite L; exact M)) as PE. pose proof (pad_len good) as PL. rewrite PE, L in PL.
      unfold asize. lia. }
    assert (GI : In good oks) by (apply MEM; rewrite <- (pad_exact good) by (rewrite L; exact M); exact IN).
    assert (ALL : forall x, In x oks -> ck K x = d_ck d -> x = good).
    { intros x Hx Cx. apply MEM in Hx. pose proof (NC x Hx) as N. unfold no_collision in N.
      rewrite Forall_forall in F. pose proof (F _ Hx) as Lx. cbn in Lx. rewrite ztake_all in N by lia. auto. }
    assert (R : try_recons K d oks = Some (Ok b)).
    { clearbody oks. clear - ALL GI L D C. induction oks as [|r oks IH]; [contradiction|]. cbn [try_recons].
      destruct (ck K r =? d_ck d) eqn:E.
      - apply Z.eqb_eq in E. rewrite (ALL r (or_introl eq_refl) E).
        destruct (d_compressed d); [now rewrite D|]. rewrite L, Z.eqb_refl. cbn [oassert]. congruence.
      - apply IH; [|intros x Hx; apply ALL; now right]. destruct GI as [->|H]; [|exact H].
        rewrite C, Z.eqb_refl in E. discriminate. }
    destruct oks as [|x oks]; [contradiction|]. cbn. exact R.
Qed.

(** The full claim fails: a record that does not fill its last block is lost if
    the copy read first is damaged, although the other disk has it intact --
    the reconstructions are checksummed together with the padding. *)
Theorem C50_partial_block_refuted :
  exists K d good buf l,
    codecs_ok K /\ zlen good = d_csize d /\ ck K good = d_ck d /\ d_compressed d = false /\
    2 <= zlen l /\ copies_of d good l /\ zlen buf = asize d * BPL /\
    no_collision K d good buf /\ (forall x, In (Ok x) l -> no_collision K d good x) /\
    ddml_read K d (Ok buf) (mirror_read_long l) = Some (Err EINTEGRITY).
Proof.
  pose (good := [1; 2; 3]).
  pose (d := mkdrp 0 false 3 3 (ck toy good)).
  exists toy, d, good, (zrepeat 0 4096), [Ok (zrepeat 0 4096); Ok (pad good)].
  split; [apply toy_ok|]. split; [reflexivity|]. split; [reflexivity|]. split; [reflexivity|].
  split; [vm_compute; discriminate|]. split.
  { split; [|right; now left]. repeat constructor; vm_compute; reflexivity. }
  split; [vm_compute; reflexivity|]. split; [|split].
  - unfold no_collision. vm_compute. discriminate.
  - intros x [E|[E|[]]]; injection E as <-; unfold no_collision; vm_compute; [discriminate|reflexivity].
  - vm_compute. reflexivity.
Qed.

(** In general: for a record that does not fill its last block, no
    reconstruction is ever accepted unless its checksum including the padding
    collides with the record's. *)
Theorem C50_partial_block_never_heals K d buf rs :
  ck K (ztake (d_csize d) buf) <> d_ck d -> (forall r, In r rs -> ck K r <> d_ck d) ->
  ddml_read K d (Ok buf) (Ok rs) = Some (Err EINTEGRITY).
Proof.
  intros H R. unfold ddml_read. rewrite (proj2 (Z.eqb_neq _ _) H).
  induction rs as [|r rs IH]; [reflexivity|]. cbn [try_recons].
  rewrite (proj2 (Z.eqb_neq _ _) (R r (or_introl eq_refl))). apply IH. intros x Hx. apply R. now right.
Qed.

Example C50_heals_example :
  let good := zrepeat 9 4096 in
  let d := mkdrp 0 false 4096 4096 (ck toy good) in
  ddml_read toy d (Ok (zrepeat 0 4096)) (mirror_read_long [Ok (zrepeat 0 4096); Err EIO; Ok (pad good)]) = Some (Ok good).
Proof. vm_compute. reflexivity. Qed.

(** * C66: the record store *)

(** What a client of the store does.  [direct] operations bypass the cache; a
    record is either always or never accessed directly when it is removed. *)
Inductive dop :=
| DPut (b : list Z) (c : compression) (txg : Z)
| DPutDirect (b : list Z) (c : compression) (txg : Z)
| DGet (d : drp) | DGetDirect (d : drp)
| DPop (d : drp) | DPopDirect (d : drp)
| DDelete (d : drp) | DDeleteDirect (d : drp)
| DEvict (d : drp)
| DAdvance | DSync | DRemount.

Inductive dres := RPut (r : res drp) | RGet (r : res (list Z)) | RNone.

Definition dstep K v junk (s : ddml) (op : dop) : option (ddml * dres) :=
  let put (x : option (ddml * res drp)) := let* (s, r) := x in Some (s, RPut r) in
  let get (x : option (ddml * res (list Z))) := let* (s, r) := x in Some (s, RGet r) in
  let unit (x : option ddml) := let* s := x in Some (s, RNone) in
  match op with
  | DPut b c txg => put (ddml_put K v junk b c txg s)
  | DPutDirect b c txg => put (put_direct K v junk b c txg s)
  | DGet d => get (ddml_get K d s)
  | DGetDirect d => get (let* r := get_direct K d s in Some (s, r))
  | DPop d => get (ddml_pop K v d s)
  | DPopDirect d => get (pop_direct K v d s)
  | DDelete d => unit (ddml_delete v d s)
  | DDeleteDirect d => unit (delete_direct v d s)
  | DEvict d => unit (Some (ddml_evict d s))
  | DAdvance => unit (Some (ddml_advance v junk s))
  | DSync => unit (ddml_flush v junk s)
  | DRemount => unit (ddml_remount v junk s)
  end.

(** The records a client holds: direct or not, pointer, contents. *)
Notation held := (list (bool * (drp * list Z))).

Definition drop (d : drp) (h : held) : held := filter (fun x => negb (d_pba (fst (snd x)) =? d_pba d)) h.

Definition held_next (h : held) (op : dop) (r : dres) : held :=
  match op, r with
  | DPut b _ _, RPut (Ok d) => (false, (d, b)) :: h
  | DPutDirect b _ _, RPut (Ok d) => (true, (d, b)) :: h
  | (DPop d | DPopDirect d | DDelete d | DDeleteDirect d), _ => drop d h
  | _, _ => h
  end.

Definition dlegal (h : held) (clean : bool) (op : dop) : Prop :=
  match op with
  | DPut b c txg | DPutDirect b c txg => 0 < zlen b < U32MAX /\ comp_ok c /\ 0 <= txg < TXG_MAX
  | DGet d | DPop d | DDelete d => exists b, In (false, (d, b)) h
  | DPopDirect d | DDeleteDirect d => exists b, In (true, (d, b)) h
  | DGetDirect d => exists f b, In (f, (d, b)) h
  | DEvict _ | DAdvance | DSync => True
  | DRemount => clean = true
  end.

Definition dclean (op : dop) (clean : bool) : bool :=
  match op with DSync | DRemount => true | DGet _ | DGetDirect _ | DEvict _ => clean | _ => false end.

Inductive dreach K v junk dk0 : ddml -> held -> bool -> Prop :=
| dreach_init : dreach K v junk dk0 (ddml_create v dk0) [] false
| dreach_step s h cl op s' r : dreach K v junk dk0 s h cl -> dlegal h cl op -> dstep K v junk s op = Some (s', r) ->
    dreach K v junk dk0 s' (held_next h op r) (dclean op cl).

(** What the client may expect of the answer. *)
Definition danswer (h : held) (op : dop) (r : dres) : Prop :=
  match op with
  | DPut b c txg | DPutDirect b c txg =>
      r = RPut (Err ENOSPC) \/
      exists d, r = RPut (Ok d) /\
        forall f d' b', In (f, (d', b')) h -> disjoint (d_pba d, asize d) (d_pba d', asize d')
  | DGet d | DGetDirect d | DPop d | DPopDirect d => forall f b, In (f, (d, b)) h -> r = RGet (Ok b)
  | _ => r = RNone
  end.

Section C66.
Context (K : codecs) (v : vdev) (junk dk0 : Z -> list Z).
Hypothesis OK : codecs_ok K.
Hypothesis G : geometry v.

Definition SInv (s : ddml) (h : held) (cl : bool) : Prop :=
  (exists tr, Store K v (dcl s) (disk s) (map snd h) cl tr) /\
  zm_ok (dcache s) /\ (forall p b, zm_get p (dcache s) = Some b -> exists d, In (false, (d, b)) h /\ d_pba d = p).

Lemma drop_perm s h cl f d b : SInv s h cl -> In (f, (d, b)) h -> Permutation h ((f, (d, b)) :: drop d h).
Proof.
  intros ((tr & S) & _) H. apply in_split in H. destruct H as (l1 & l2 & ->).
  assert (N : forall x, In x (l1 ++ l2) -> d_pba (fst (snd x)) <> d_pba d).
  { intros x Hx E. apply in_split in Hx. destruct Hx as (m1 & m2 & EM).
    apply (Store_pba K v junk G _ _ _ _ _ (snd x) (d, b) (map snd (m1 ++ m2)) S); [|exact E].
    rewrite map_app. cbn [map snd].
    rewrite <- Permutation_middle. rewrite <- map_app, EM. rewrite !map_app. cbn [map].
    rewrite <- Permutation_middle. apply perm_swap. }
  unfold drop. rewrite filter_app. cbn [filter snd fst]. rewrite Z.eqb_refl. cbn [negb].
  rewrite <- filter_app, <- Permutation_middle. constructor.
  replace (filter _ (l1 ++ l2)) with (l1 ++ l2); [reflexivity|].
  symmetry. clear - N. induction (l1 ++ l2) as [|x l IH]; [reflexivity|]. cbn [filter].
  rewrite (proj2 (Z.eqb_neq _ _) (N x (or_introl eq_refl))). cbn [negb]. f_equal. apply IH. intros y Hy. apply N. now right.
Qed.

Lemma held_same s h cl f1 f2 d b1 b2 : SInv s h cl -> In (f1, (d, b1)) h -> In (f2, (d, b2)) h -> f1 = f2 /\ b1 = b2.
Proof.
  intros I H1 H2. pose proof (drop_perm _ _ _ _ _ _ I H1) as P.
  eapply Permutation_in in H2; [|exact P]. destruct H2 as [E|H2]; [injection E as -> ->; auto|].
  unfold drop in H2. apply filter_In in H2. cbn [snd fst] in H2. rewrite Z.eqb_refl in H2. destruct H2; discriminate.
Qed.

Lemma cache_hit s h cl d b f b' : SInv s h cl -> zm_get (d_pba d) (dcache s) = Some b -> In (f, (d, b')) h -> b = b'.
Proof.
  intros I E H. pose proof I as (_ & _ & CI). destruct (CI _ _ E) as (d' & H' & Ep).
  pose proof (drop_perm _ _ _ _ _ _ I H) as P. eapply Permutation_in in H'; [|exact P].
  destruct H' as [X|X]; [congruence|]. unfold drop in X. apply filter_In in X. cbn [snd fst] in X.
  rewrite Ep, Z.eqb_refl in X. destruct X; discriminate.
Qed.

Lemma drop_in d h x : In x (drop d h) <-> In x h /\ d_pba (fst (snd x)) <> d_pba d.
Proof.
  unfold drop. rewrite filter_In. destruct (Z.eqb_spec (d_pba (fst (snd x))) (d_pba d)); cbn [negb]; split; intros [A B]; split; auto; try discriminate; contradiction.
Qed.

(** After removing a record: the cache no longer refers to it. *)
Lemma delete_keeps s h cl f d b : SInv s h cl -> In (f, (d, b)) h ->
  zm_get (d_pba d) (dcache s) = None ->
  exists s', delete_direct v d s = Some s' /\ dcache s' = dcache s /\ SInv s' (drop d h) false.
Proof.
  intros I H E. pose proof I as ((tr & S) & Z0 & CI). pose proof (drop_perm _ _ _ _ _ _ I H) as P.
  destruct s as [c dk ch]. cbn [dcl disk dcache] in *.
  destruct (free_spec K v junk G c dk (map snd h) (map snd (drop d h)) cl tr d b ch S) as (c' & E' & S' & _).
  { apply (Permutation_map snd) in P. exact P. }
  eexists. split; [exact E'|]. split; [reflexivity|]. split; [exists tr; exact S'|]. split; [exact Z0|]. cbn [dcache].
  intros p x Ex. destruct (CI p x Ex) as (d' & Hd & Ep). exists d'. split; [|exact Ep]. apply drop_in. split; [exact Hd|].
  cbn [snd fst]. intros X. congruence.
Qed.

Lemma evict_keeps s h cl d : SInv s h cl -> SInv (ddml_evict d s) h cl /\ zm_get (d_pba d) (dcache (ddml_evict d s)) = None.
Proof.
  intros (S & Z0 & CI). unfold ddml_evict. split; cbn [dcl disk dcache].
  - split; [exact S|]. split; [now apply zm_ok_del|]. cbn [dcache]. intros p b E. rewrite zm_get_del in E by exact Z0.
    destruct (p =? d_pba d); [discriminate|]. auto.
  - rewrite zm_get_del by exact Z0. now rewrite Z.eqb_refl.
Qed.

(** A direct record is never cached. *)
Lemma direct_uncached s h cl d b : SInv s h cl -> In (true, (d, b)) h -> zm_get (d_pba d) (dcache s) = None.
Proof.
  intros I H. destruct (zm_get (d_pba d) (dcache s)) as [x|] eqn:E; [|reflexivity].
  pose proof I as (_ & _ & CI). destruct (CI _ _ E) as (d' & H' & Ep).
  pose proof (drop_perm _ _ _ _ _ _ I H) as P. eapply Permutation_in in H'; [|exact P].
  destruct H' as [X|X]; [discriminate|]. apply drop_in in X. cbn [snd fst] in X. tauto.
Qed.

Lemma read_held s h cl f d b : SInv s h cl -> In (f, (d, b)) h -> read_blocks K d s = Some (Ok b).
Proof.
  intros ((tr & (_ & F)) & _) H. rewrite Forall_forall in F. destruct s as [c dk ch]. cbn [disk] in F.
  apply (content_read K dk c ch (d, b)). apply F. apply (in_map snd) in H. exact H.
Qed.

Lemma dstep_ok s h cl op : SInv s h cl -> dlegal h cl op ->
  exists s' r, dstep K v junk s op = Some (s', r) /\ danswer h op r /\ SInv s' (held_next h op r) (dclean op cl).
Proof.
  intros I L. destruct op as [b c txg|b c txg|d|d|d|d|d|d|d| | |]; cbn [dlegal] in L; cbn [dstep danswer dclean].
  - (* put *)
    destruct L as (L1 & L2 & L3). pose proof I as ((tr & S) & Z0 & CI). destruct s as [c0 dk ch]. cbn [dcl disk dcache] in *.
    destruct (put_spec K v junk OK G c0 dk (map snd h) cl tr b c txg ch S L2 L1 L3) as (s' & r & E & EC & _ & o & R).
    unfold ddml_put. rewrite E. cbn [obind]. destruct r as [d|e].
    + destruct R as (S' & _ & DJ & _). eexists _, _. split; [reflexivity|]. split.
      * right. exists d. split; [reflexivity|]. intros f d' b' H. apply (DJ (ext (d', b'))). apply in_map. apply (in_map snd) in H. exact H.
      * cbn [held_next]. split; [exists (tr ++ o); exact S'|]. cbn [dcache]. rewrite EC. split; [now apply zm_ok_set|].
        intros p x Ex. rewrite zm_get_set in Ex by exact Z0. destruct (Z.eqb_spec p (d_pba d)) as [->|N].
        -- injection Ex as <-. exists d. split; [now left|reflexivity].
        -- destruct (CI p x Ex) as (d' & Hd & Ep). exists d'. split; [now right|exact Ep].
    + destruct R as (-> & S'). eexists _, _. split; [reflexivity|]. split; [now left|]. cbn [held_next].
      split; [exists (tr ++ o); exact S'|]. rewrite EC. auto.
  - (* put_direct *)
    destruct L as (L1 & L2 & L3). pose proof I as ((tr & S) & Z0 & CI). destruct s as [c0 dk ch]. cbn [dcl disk dcache] in *.
    destruct (put_spec K v junk OK G c0 dk (map snd h) cl tr b c txg ch S L2 L1 L3) as (s' & r & E & EC & _ & o & R).
    unfold put_direct. rewrite E. cbn [obind]. destruct r as [d|e].
    + destruct R as (S' & _ & DJ & _). eexists _, _. split; [reflexivity|]. split.
      * right. exists d. split; [reflexivity|]. intros f d' b' H. apply (DJ (ext (d', b'))). apply in_map. apply (in_map snd) in H. exact H.
      * cbn [held_next]. split; [exists (tr ++ o); exact S'|]. rewrite EC. split; [exact Z0|].
        intros p x Ex. destruct (CI p x Ex) as (d' & Hd & Ep). exists d'. split; [now right|exact Ep].
    + destruct R as (-> & S'). eexists _, _. split; [reflexivity|]. split; [now left|]. cbn [held_next].
      split; [exists (tr ++ o); exact S'|]. rewrite EC. auto.
  - (* get *)
    destruct L as (b & H). unfold ddml_get. destruct (zm_get (d_pba d) (dcache s)) as [x|] eqn:E.
    + cbn [obind]. eexists _, _. split; [reflexivity|]. split; [|exact I].
      intros f b' H'. now rewrite (cache_hit _ _ _ _ _ _ _ I E H').
    + unfold get_direct. rewrite (read_held _ _ _ _ _ _ I H). cbn [obind]. eexists _, _. split; [reflexivity|]. split.
      * intros f b' H'. now destruct (held_same _ _ _ _ _ _ _ _ I H H') as [_ ->].
      * cbn [held_next]. destruct I as (S & Z0 & CI). split; [exact S|]. cbn [dcache]. split; [now apply zm_ok_set|].
        intros p y Ey. rewrite zm_get_set in Ey by exact Z0. destruct (Z.eqb_spec p (d_pba d)) as [->|N]; [|auto].
        injection Ey as <-. exists d. auto.
  - (* get_direct *)
    destruct L as (f & b & H). unfold get_direct. rewrite (read_held _ _ _ _ _ _ I H). cbn [obind].
    eexists _, _. split; [reflexivity|]. split; [|exact I].
    intros f' b' H'. now destruct (held_same _ _ _ _ _ _ _ _ I H H') as [_ ->].
  - (* pop *)
    destruct L as (b & H). unfold ddml_pop. destruct (zm_get (d_pba d) (dcache s)) as [x|] eqn:E.
    + destruct (evict_keeps _ _ _ d I) as [I' E'].
      destruct (delete_keeps _ _ _ _ _ _ I' H E') as (s' & ED & _ & I2). rewrite ED. cbn [obind].
      eexists _, _. split; [reflexivity|]. split; [|exact I2]. intros f b' H'. now rewrite (cache_hit _ _ _ _ _ _ _ I E H').
    + unfold pop_direct. rewrite (read_held _ _ _ _ _ _ I H). cbn [obind].
      destruct (delete_keeps _ _ _ _ _ _ I H E) as (s' & ED & _ & I2). rewrite ED. cbn [obind].
      eexists _, _. split; [reflexivity|]. split; [|exact I2].
      intros f' b' H'. now destruct (held_same _ _ _ _ _ _ _ _ I H H') as [_ ->].
  - (* pop_direct *)
    destruct L as (b & H). unfold pop_direct. rewrite (read_held _ _ _ _ _ _ I H). cbn [obind].
    destruct (delete_keeps _ _ _ _ _ _ I H (direct_uncached _ _ _ _ _ I H)) as (s' & ED & _ & I2). rewrite ED. cbn [obind].
    eexists _, _. split; [reflexivity|]. split; [|exact I2].
    intros f' b' H'. now destruct (held_same _ _ _ _ _ _ _ _ I H H') as [_ ->].
  - (* delete *)
    destruct L as (b & H). unfold ddml_delete. destruct (evict_keeps _ _ _ d I) as [I' E'].
    destruct (delete_keeps _ _ _ _ _ _ I' H E') as (s' & ED & _ & I2). rewrite ED. cbn [obind].
    eexists _, _. split; [reflexivity|]. split; [reflexivity|exact I2].
  - (* delete_direct *)
    destruct L as (b & H).
    destruct (delete_keeps _ _ _ _ _ _ I H (direct_uncached _ _ _ _ _ I H)) as (s' & ED & _ & I2). rewrite ED. cbn [obind].
    eexists _, _. split; [reflexivity|]. split; [reflexivity|exact I2].
  - (* evict *)
    cbn [obind]. eexists _, _. split; [reflexivity|]. split; [reflexivity|]. apply evict_keeps. exact I.
  - (* advance *)
    pose proof I as ((tr & S) & Z0 & CI). destruct s as [c dk ch]. cbn [dcl disk dcache] in *.
    destruct (advance_spec K v junk G c dk (map snd h) cl tr ch S) as (c' & dk' & o & E & S'). rewrite E. cbn [obind].
    eexists _, _. split; [reflexivity|]. split; [reflexivity|]. split; [exists (tr ++ o); exact S'|]. auto.
  - (* sync *)
    pose proof I as ((tr & S) & Z0 & CI). destruct s as [c dk ch]. cbn [dcl disk dcache] in *.
    destruct (flush_store K v junk G c dk (map snd h) cl tr ch S) as (c' & o & E & S'). rewrite E. cbn [obind].
    eexists _, _. split; [reflexivity|]. split; [reflexivity|]. split; [exists (tr ++ o); exact S'|]. auto.
  - (* remount *)
    subst cl. pose proof I as ((tr & S) & Z0 & CI). destruct s as [c dk ch]. cbn [dcl disk dcache] in *.
    destruct (remount_store K v junk G c dk (map snd h) tr ch S) as (c' & o & E & S'). rewrite E. cbn [obind].
    eexists _, _. split; [reflexivity|]. split; [reflexivity|]. split; [exists (tr ++ o); exact S'|]. split; [apply zm_ok_nil|].
    cbn [dcache]. intros p b X. discriminate.
Qed.

Lemma dreach_inv s h cl : dreach K v junk dk0 s h cl -> SInv s h cl.
Proof.
  induction 1 as [|s h cl op s' r R IH L E].
  - split; [|split; [apply zm_ok_nil|intros p b X; discriminate]]. exists []. split; [|constructor].
    exists []. split; [constructor|apply reach_init].
  - destruct (dstep_ok s h cl op IH L) as (s2 & r2 & E2 & _ & I2). congruence.
Qed.

End C66.

(** In every history of the store, whatever the blocks held at first and
    whatever erased zones hold: no operation panics, every read of a held record
    returns exactly what was put, and a put either fails for lack of space or
    returns blocks that no held record uses. *)
Theorem C66_records_read_back K v junk dk0 s h cl op :
  codecs_ok K -> geometry v -> dreach K v junk dk0 s h cl -> dlegal h cl op ->
  exists s' r, dstep K v junk s op = Some (s', r) /\ danswer h op r.
Proof.
  intros OK G R L. destruct (dstep_ok K v junk OK G s h cl op (dreach_inv K v junk dk0 OK G s h cl R) L) as (s' & r & E & A & _). eauto.
Qed.

(** The blocks in use are those of the held records. *)
Theorem C66_used_is_exact K v junk dk0 s h cl :
  codecs_ok K -> geometry v -> dreach K v junk dk0 s h cl ->
  used (dcl s) = Some (fold_right (fun x a => asize (fst (snd x)) + a) 0 h).
Proof.
  intros OK G R. destruct (dreach_inv K v junk dk0 OK G s h cl R) as ((tr & ((live & P & RR) & _)) & _).
  rewrite (C14_used_is_exact v _ _ _ _ G RR). f_equal. clear - P.
  assert (E : sum_len live = sum_len (map ext (map snd h))).
  { clear - P. induction P; cbn [sum_len fold_right] in *; unfold sum_len in *; cbn [fold_right]; try lia. }
  rewrite E. clear. induction h as [|x h IH]; [reflexivity|]. cbn [map sum_len fold_right]. unfold sum_len in IH. rewrite IH.
  unfold ext. reflexivity.
Qed.

(** A history: two puts, one compressed; a deletion; sync, remount, and reads. *)
Definition drun K v junk (ops : list dop) (s : ddml) : option (ddml * list dres) :=
  fold_left (fun a op => let* (s, l) := a in let* (s, r) := dstep K v junk s op in Some (s, l ++ [r])) ops (Some (s, [])).

Example C66_example :
  let b1 := zrepeat 7 8192 in let b2 := [1; 2; 3] in
  let d1 := mkdrp 0 true 8192 8 (ck toy (fst (compress toy (CLZ4 None) b1))) in
  let d2 := mkdrp 1 false 3 3 (ck toy b2) in
  option_map snd (drun toy v5 (fun _ => []) [DPut b1 (CLZ4 None) 1; DPut b2 CNone 1; DGet d1; DSync; DRemount; DGet d1; DGet d2; DPop d1; DGetDirect d2]
    (ddml_create v5 (fun _ => []))) =
  Some [RPut (Ok d1); RPut (Ok d2); RGet (Ok b1); RNone; RNone; RGet (Ok b1); RGet (Ok b2); RGet (Ok b1); RGet (Ok b2)].
Proof. vm_compute. reflexivity. Qed.

Print Assumptions C49_read_back.
Print Assumptions C49_only_if_it_saves.
Print Assumptions C49_bad_tag_rejected.
Print Assumptions C50_returned_data_matches.
Print Assumptions C50_mirror_heals_partial.
Print Assumptions C50_partial_block_refuted.
Print Assumptions C50_partial_block_never_heals.
Print Assumptions C66_records_read_back.
Print Assumptions C66_used_is_exact.
