(** Facts about the direct data management layer. *)
From Coq Require Import Permutation.
From Verif Require Import Common ZMap FSM_Model FSM_Spec FSM_Proofs FSM_Inv FSM_Props DDML_Model.

Lemma BPL_pos : 0 < BPL. Proof. unfold BPL. lia. Qed.

(** * Blocks *)

Lemma div_ceil_bounds a b : 0 < b -> 0 <= a -> a <= div_ceil a b * b < a + b.
Proof.
  intros B A. unfold div_ceil. pose proof (Z.div_mod (a + b - 1) b ltac:(lia)) as E.
  pose proof (Z.mod_pos_bound (a + b - 1) b B). nia.
Qed.

Lemma div_ceil_nonneg a b : 0 < b -> 0 <= a -> 0 <= div_ceil a b.
Proof. intros B A. unfold div_ceil. apply Z.div_pos; lia. Qed.

Lemma div_ceil_pos a b : 0 < b -> 0 < a -> 0 < div_ceil a b.
Proof. intros B A. pose proof (div_ceil_bounds a b B ltac:(lia)). nia. Qed.

Lemma div_ceil_le a b : 0 < b -> 0 <= a -> div_ceil a b <= a.
Proof. intros B A. pose proof (div_ceil_bounds a b B A). destruct (Z.eq_dec a 0); nia. Qed.

Lemma chunks_concat {A} (B : nat) : forall n (x : list A), length x = (n * B)%nat ->
  concat (map (fun i => firstn B (skipn (B * i) x)) (seq 0 n)) = x.
Proof.
  intros n. induction n as [|n IH]; intros x L.
  - destruct x; [reflexivity|discriminate].
  - cbn [seq map concat]. rewrite Nat.mul_0_r. cbn [skipn].
    rewrite <- seq_shift, map_map.
    rewrite (map_ext (fun i => firstn B (skipn (B * S i) x)) (fun i => firstn B (skipn (B * i) (skipn B x)))).
    + rewrite IH; [apply firstn_skipn|]. rewrite skipn_length. cbn in L. lia.
    + intros i. f_equal. replace (B * S i)%nat with (B * i + B)%nat by lia.
      generalize (B * i)%nat as j. intros j. revert x L. clear.
      induction B as [|k IHk]; intros x _; [now rewrite Nat.add_0_r|].
      destruct x as [|y x]; [now rewrite !skipn_nil|].
      replace (j + S k)%nat with (S (j + k)) by lia. cbn [skipn].
      destruct (Nat.eq_dec (length x) (length x)); [|lia].
      clear - IHk. revert x IHk. intros x IHk.
      assert (H : forall a b (l : list A), skipn (a + b) l = skipn a (skipn b l)).
      { intros a b. revert a. induction b as [|b IHb]; intros a l; [now rewrite Nat.add_0_r|].
        destruct l as [|z l]; [now rewrite !skipn_nil|].
        replace (a + S b)%nat with (S (a + b)) by lia. cbn [skipn]. apply IHb. }
      apply H.
Qed.

Lemma zseq_seq a n : zseq a n = map (fun i => a + Z.of_nat i) (seq 0 n).
Proof.
  revert a. induction n as [|n IH]; intros a; [reflexivity|].
  cbn [zseq seq map]. f_equal; [lia|]. rewrite <- seq_shift, map_map, IH. apply map_ext. intros i. lia.
Qed.

Lemma pad_len b : zlen (pad b) = div_ceil (zlen b) BPL * BPL.
Proof.
  unfold pad. pose proof (div_ceil_bounds (zlen b) BPL BPL_pos (zlen_nonneg b)).
  rewrite zlen_app, zlen_repeat; lia.
Qed.

Lemma take_app {A} (a b : list A) : ztake (zlen a) (a ++ b) = a.
Proof.
  unfold ztake, zlen. rewrite Nat2Z.id, firstn_app, Nat.sub_diag, firstn_all. cbn [firstn].
  apply app_nil_r.
Qed.

Lemma drop_app {A} (a b : list A) : zdrop (zlen a) (a ++ b) = b.
Proof.
  unfold zdrop, zlen. rewrite Nat2Z.id, skipn_app, Nat.sub_diag, skipn_all. reflexivity.
Qed.

Lemma pad_take b : ztake (zlen b) (pad b) = b.
Proof. apply take_app. Qed.

Lemma pad_exact b : zlen b mod BPL = 0 -> pad b = b.
Proof.
  intros H. unfold pad. replace (div_ceil (zlen b) BPL * BPL - zlen b) with 0; [apply app_nil_r|].
  pose proof (div_ceil_bounds (zlen b) BPL BPL_pos (zlen_nonneg b)) as D.
  pose proof (Z.div_mod (zlen b) BPL ltac:(pose proof BPL_pos; lia)) as E. rewrite H in E.
  pose proof BPL_pos as P.
  assert (zlen b / BPL <= div_ceil (zlen b) BPL) by (apply (Z.mul_le_mono_pos_r _ _ BPL P); lia).
  assert (div_ceil (zlen b) BPL < zlen b / BPL + 1) by (apply (Z.mul_lt_mono_pos_r BPL _ _ P); lia).
  replace (div_ceil (zlen b) BPL) with (zlen b / BPL) by lia. lia.
Qed.

Lemma read_write dk lba b : read_data (write_data dk lba b) lba (div_ceil (zlen b) BPL) = pad b.
Proof.
  unfold read_data. set (n := div_ceil (zlen b) BPL).
  pose proof (div_ceil_nonneg (zlen b) BPL BPL_pos (zlen_nonneg b)) as N. fold n in N.
  rewrite (map_ext_in _ (fun l => ztake BPL (zdrop (BPL * (l - lba)) (pad b)))).
  - unfold zrange. replace (lba + n - lba) with n by lia. rewrite zseq_seq, map_map.
    rewrite (map_ext _ (fun i => firstn (Z.to_nat BPL) (skipn (Z.to_nat BPL * i) (pad b)))).
    + apply chunks_concat. pose proof (pad_len b) as P. fold n in P. unfold zlen in P.
      pose proof BPL_pos. rewrite <- Z2Nat.inj_mul by lia. lia.
    + intros i. unfold ztake, zdrop. do 2 f_equal. pose proof BPL_pos.
      replace (lba + Z.of_nat i - lba) with (Z.of_nat i) by lia.
      rewrite Z2Nat.inj_mul by lia. now rewrite Nat2Z.id.
  - intros l Hl. rewrite in_zrange in Hl. unfold write_data. fold n.
    replace ((lba <=? l) && (l <? lba + n)) with true by (symmetry; apply andb_true_intro; lia). reflexivity.
Qed.

Lemma read_ext dk dk' lba n : (forall l, lba <= l < lba + n -> dk' l = dk l) -> read_data dk' lba n = read_data dk lba n.
Proof.
  intros H. unfold read_data. f_equal. apply map_ext_in. intros l Hl. rewrite in_zrange in Hl. auto.
Qed.

(** * Compression *)

Record codecs_ok (K : codecs) : Prop := {
  k_lz4 : forall b, lz4_d K (lz4_c K b) (zlen b) = Some b;
  k_zstd : forall b, zstd_d K (zstd_c K b) (zlen b) = Some b;
  k_shuf : forall t b, 1 <= t <= 255 -> unshuf K t (shuf K t b) = b;
  k_shuf_len : forall t b, 1 <= t <= 255 -> zlen (shuf K t b) = zlen b
}.

Definition comp_ok (c : compression) : Prop :=
  match c with
  | CNone | CLZ4 None | CZstd None => True
  | CLZ4 (Some t) | CZstd (Some t) => 1 <= t <= 255
  end.

Lemma tag_len c : c <> CNone -> zlen (tag_bytes c) = TAGSIZE.
Proof. destruct c as [|[t|]|[t|]]; intros H; try congruence; reflexivity. Qed.

Lemma tag_roundtrip c : c <> CNone -> comp_ok c -> tag_read (tag_bytes c) = Some c.
Proof.
  destruct c as [|[t|]|[t|]]; intros H C; try congruence; cbn [comp_ok] in C; cbn [tag_bytes tag_read];
    try (replace (t =? 0) with false by lia); reflexivity.
Qed.

Lemma compress_len K c b : zlen (fst (compress K c b)) <= Z.max (zlen b) 0 \/
  div_ceil (zlen (fst (compress K c b))) BPL < div_ceil (zlen b) BPL.
Proof.
  pose proof (zlen_nonneg b).
  destruct c; cbn [compress fst]; [lia| |];
    (destruct (zlen b <=? BPL); [cbn [fst]; lia|]; destruct (_ <? _) eqn:E; cbn [fst]; [right; lia|lia]).
Qed.

Lemma compress_cases K c b : compress K c b = (b, CNone) \/
  (c <> CNone /\ BPL < zlen b /\ div_ceil (zlen (squeeze K c b ++ tag_bytes c)) BPL < div_ceil (zlen b) BPL /\
   compress K c b = (squeeze K c b ++ tag_bytes c, c)).
Proof.
  destruct c; cbn [compress]; [now left| |];
    (destruct (zlen b <=? BPL) eqn:E1; [now left|]; destruct (_ <? _) eqn:E; [right|now left];
     repeat split; try congruence; lia).
Qed.

Lemma squeeze_back K c b : codecs_ok K -> c <> CNone -> comp_ok c ->
  decompress K (squeeze K c b ++ tag_bytes c) (zlen b) = Some (Ok b).
Proof.
  intros OK N C. unfold decompress. rewrite zlen_app, (tag_len c N).
  pose proof (zlen_nonneg (squeeze K c b)) as P.
  replace (TAGSIZE <=? zlen (squeeze K c b) + TAGSIZE) with true by lia. cbn [oassert].
  replace (zlen (squeeze K c b) + TAGSIZE - TAGSIZE) with (zlen (squeeze K c b)) by lia.
  rewrite take_app, drop_app.
  rewrite (tag_roundtrip c N C).
  destruct c as [|[t|]|[t|]]; try congruence; cbn [squeeze comp_ok] in *.
  - pose proof (k_lz4 K OK (shuf K t b)) as X. rewrite (k_shuf_len K OK t b C) in X. rewrite X.
    cbn [option_map]. now rewrite (k_shuf K OK).
  - now rewrite (k_lz4 K OK).
  - pose proof (k_zstd K OK (shuf K t b)) as X. rewrite (k_shuf_len K OK t b C) in X. rewrite X.
    cbn [option_map]. now rewrite (k_shuf K OK).
  - now rewrite (k_zstd K OK).
Qed.

(** * The store *)

Section Store.
Context (K : codecs) (v : vdev) (junk : Z -> list Z).
Hypothesis OK : codecs_ok K.
Hypothesis G : geometry v.

Definition decode (d : drp) (st : list Z) : option (res (list Z)) :=
  if d_compressed d then decompress K st (d_lsize d) else Some (Ok st).

Definition content (dk : Z -> list Z) (p : drp * list Z) : Prop :=
  let (d, b) := p in
  exists st, read_data dk (d_pba d) (asize d) = pad st /\ zlen st = d_csize d /\ ck K st = d_ck d /\
             decode d st = Some (Ok b) /\ 0 < d_csize d < U32MAX.

Definition ext (p : drp * list Z) : extent := (d_pba (fst p), asize (fst p)).

Definition Store (c : cluster) (dk : Z -> list Z) (recs : list (drp * list Z)) (clf : bool) (tr : list vop) : Prop :=
  (exists live, Permutation live (map ext recs) /\ reach v c live clf tr) /\ Forall (content dk) recs.

Lemma content_read dk cl' ch p : content dk p -> read_blocks K (fst p) (mkddml cl' dk ch) = Some (Ok (snd p)).
Proof.
  destruct p as [d b]. intros (st & R & L & C & D & _). cbn [fst snd]. unfold read_blocks, ddml_read. cbn [disk].
  rewrite R. rewrite <- L, pad_take, C, Z.eqb_refl. exact D.
Qed.

Lemma content_ext dk dk' p : (forall l, d_pba (fst p) <= l < d_pba (fst p) + asize (fst p) -> dk' l = dk l) ->
  content dk p -> content dk' p.
Proof.
  destruct p as [d b]. cbn [fst]. intros H (st & R & X). exists st. rewrite (read_ext dk dk'); auto.
Qed.

Lemma write_effect space txg c c' r o : write v space txg c = Some (c', r, o) ->
  exists o1, (forall x, In x o1 -> exists z, x = VFinish z \/ x = VOpen z) /\
  match r with WOk lba => exists z, o = o1 ++ [VWrite z lba space] | WNoSpace => o = o1 end.
Proof.
  unfold write. destruct (try_allocate space (fs c)) as [[[f r0] nf]|]; cbn [obind]; [|discriminate].
  destruct (close_zones nf txg f (alloc_space c)) as [[[f1 a] o1]|] eqn:E; cbn [obind]; [|discriminate].
  assert (F : forall x, In x o1 -> exists z, x = VFinish z \/ x = VOpen z).
  { clear - E. revert f a o1 E. generalize (alloc_space c) as a0. revert f1.
    induction nf as [|z nf IH]; cbn [close_zones]; intros f1 a0 f a o1 E.
    - injection E as <- <- <-. contradiction.
    - destruct (finish_zone z txg f) as [[f2 n]|]; cbn [obind] in E; [|discriminate].
      destruct (close_zones nf txg f2 (a0 + n)) as [[[f3 a3] o3]|] eqn:E3; cbn [obind] in E; [|discriminate].
      injection E as <- <- <-. intros x [<-|Hx]; [eauto|]. eapply IH; eauto. }
  destruct r0 as [[z lba]|].
  - intros H. injection H as <- <- <-. exists o1. eauto.
  - destruct (find_empty f1) as [z|].
    + destruct (open_zone z _ _ space txg f1) as [[f2 [[[z2 lba]|]|]]|]; cbn [obind]; try discriminate;
        intros H; injection H as <- <- <-.
      * exists (o1 ++ [VOpen z]). split; [|exists z; now rewrite <- app_assoc].
        intros x Hx. apply in_app_or in Hx. destruct Hx as [Hx|[<-|[]]]; eauto.
      * exists o1. auto.
    + intros H. injection H as <- <- <-. exists o1. auto.
Qed.

Lemma apply_quiet b o dk : (forall x, In x o -> exists z, x = VFinish z \/ x = VOpen z) ->
  fold_left (dev_apply v junk b) o dk = dk.
Proof.
  revert dk. induction o as [|x o IH]; intros dk H; [reflexivity|]. cbn [fold_left].
  destruct (H x (or_introl eq_refl)) as (z & [-> | ->]); cbn [dev_apply]; apply IH; intros y Hy; apply H; now right.
Qed.

Lemma FOP_perm {A} (P : A -> A -> Prop) l l' : (forall a b, P a b -> P b a) -> Permutation l l' ->
  ForallOrdPairs P l -> ForallOrdPairs P l'.
Proof.
  intros S. induction 1; intros F; auto.
  - inversion F; subst. constructor; auto. eapply Permutation_Forall; eauto.
  - inversion F as [|? ? F1 F2]; subst. inversion F2 as [|? ? F3 F4]; subst.
    inversion F1; subst. constructor; [constructor|constructor]; auto.
Qed.

Lemma disjoint_sym a b : disjoint a b -> disjoint b a.
Proof. unfold disjoint. intros H l X. apply (H l). tauto. Qed.

Lemma disj_cons_other (e : extent) l : ForallOrdPairs disjoint (e :: l) -> forall x, In x l -> disjoint e x.
Proof. intros F x Hx. inversion F as [|? ? F1 F2]; subst. rewrite Forall_forall in F1. auto. Qed.

(** The disk of the new block: writing to a fresh extent leaves all records. *)
Lemma write_keeps dk lba b recs :
  ForallOrdPairs disjoint ((lba, div_ceil (zlen b) BPL) :: map ext recs) ->
  Forall (content dk) recs -> Forall (content (write_data dk lba b)) recs.
Proof.
  intros D F. rewrite Forall_forall in *. intros p Hp. eapply content_ext; [|apply F; exact Hp].
  intros l Hl. pose proof (disj_cons_other _ _ D (ext p) (in_map ext _ _ Hp) l) as X.
  unfold ext in X. cbn [fst snd] in X. unfold write_data.
  destruct ((lba <=? l) && (l <? lba + div_ceil (zlen b) BPL)) eqn:E; [|reflexivity].
  apply andb_prop in E. exfalso. apply X. lia.
Qed.

Lemma compress_ok c b : comp_ok c -> 0 < zlen b < U32MAX -> let (cb, c') := compress K c b in
  0 < zlen cb <= zlen b /\ comp_ok c' /\
  forall p, decode (mkdrp p (is_compressed c') (zlen b) (zlen cb) (ck K cb)) cb = Some (Ok b).
Proof.
  intros C L. destruct (compress_cases K c b) as [-> | (N & B & S & ->)].
  - split; [lia|]. split; [exact Logic.I|]. reflexivity.
  - split; [|split; [exact C|]].
    + pose proof (div_ceil_bounds (zlen (squeeze K c b ++ tag_bytes c)) BPL BPL_pos (zlen_nonneg _)) as D1.
      pose proof (div_ceil_bounds (zlen b) BPL BPL_pos (zlen_nonneg _)) as D2.
      pose proof (zlen_nonneg (squeeze K c b)). rewrite zlen_app, (tag_len c N) in *. unfold TAGSIZE, BPL in *. lia.
    + intros p. unfold decode. cbn [d_compressed d_lsize]. replace (is_compressed c) with true by (destruct c; [congruence|reflexivity|reflexivity]).
      now apply squeeze_back.
Qed.

Definition full (c : cluster) (z : Z) : Prop :=
  match view (fs c) z with ZClosed _ | ZDead _ _ => True | _ => False end.

Lemma full_dz z w : dz_v v z w = DFull <-> match w with ZClosed _ | ZDead _ _ => True | _ => False end.
Proof. destruct w; cbn; split; try tauto; try discriminate; reflexivity. Qed.

(** Writes do not go to full zones, and leave them full. *)
Lemma dev_full z : forall o d d', (forall x, In x o -> match x with VErase _ => False | _ => True end) ->
  dev_run v d o = Some d' -> d z = DFull -> d' z = DFull /\ forall z' l n, In (VWrite z' l n) o -> z' <> z.
Proof.
  induction o as [|x o IH]; intros d d' Q R F.
  - cbn in R. injection R as <-. split; [exact F|]. intros ? ? ? [].
  - cbn [dev_run] in R. destruct (dev_step v d x) as [d1|] eqn:E; cbn [obind] in R; [|discriminate].
    assert (F1 : d1 z = DFull /\ forall z' l n, x = VWrite z' l n -> z' <> z).
    { pose proof (Q x (or_introl eq_refl)) as Qx.
      destruct x as [y|y l n|y g|y|y|y a]; try contradiction; cbn [dev_step] in E;
        (destruct (d y) eqn:Ey; try discriminate;
         assert (y <> z) by congruence;
         try (destruct (_ && _); [|discriminate]);
         try (destruct (_ =? _); [|discriminate]);
         injection E as <-; try unfold dset; try (replace (z =? y) with false by lia);
         split; [assumption|intros ? ? ? X; try discriminate; try (injection X as -> -> ->; auto)]). }
    destruct F1 as [F1 F2].
    destruct (IH d1 d' (fun y Hy => Q y (or_intror Hy)) R F1) as [I1 I2]. split; [exact I1|].
    intros z' l n [X|X]; eauto.
Qed.

Lemma put_spec c dk recs clf tr b cmp txg ch :
  Store c dk recs clf tr -> comp_ok cmp -> 0 < zlen b < U32MAX -> 0 <= txg < TXG_MAX ->
  exists s' r, put_common K v junk b cmp txg (mkddml c dk ch) = Some (s', r) /\ dcache s' = ch /\
  (forall z, full c z -> full (dcl s') z) /\
  exists o, match r with
  | Err e => e = ENOSPC /\ Store (dcl s') (disk s') recs false (tr ++ o)
  | Ok d => Store (dcl s') (disk s') ((d, b) :: recs) false (tr ++ o) /\
            (forall z, full c z -> ~ (fst (v_lim v z) <= d_pba d < snd (v_lim v z))) /\
            (forall x, In x (map ext recs) -> disjoint (ext (d, b)) x) /\
            (cmp = CNone -> d_csize d = zlen b /\ d_ck d = ck K b /\ d_compressed d = false /\ d_lsize d = zlen b)
  end.
Proof.
  intros ((live & P & R) & F) C L T. unfold put_common. replace (zlen b <? U32MAX) with true by lia. cbn [oassert].
  pose proof (compress_ok cmp b C L) as CO.
  assert (CN : cmp = CNone -> compress K cmp b = (b, CNone)) by (intros ->; reflexivity).
  destruct (compress K cmp b) as [cb c'] eqn:EC. destruct CO as (CL & C' & CD). cbn [dcl disk dcache].
  set (space := div_ceil (zlen cb) BPL).
  assert (SP : 0 < space < 2^32).
  { pose proof (div_ceil_pos (zlen cb) BPL BPL_pos ltac:(lia)). pose proof (div_ceil_le (zlen cb) BPL BPL_pos ltac:(lia)).
    unfold space. unfold U32MAX in L. lia. }
  assert (LG : FSM_Spec.legal live clf (CWrite space txg)) by (cbn [FSM_Spec.legal]; lia).
  pose proof (C13_never_panics v c live clf tr (CWrite space txg) G R LG) as NP. cbn [FSM_Spec.step] in NP.
  destruct (write v space txg c) as [[[c2 r2] o]|] eqn:EW; [|contradiction NP; reflexivity]. clear NP. cbn [obind].
  pose proof (reach_step v c live clf tr (CWrite space txg) c2 (RWrite r2) o R LG) as R2.
  cbn [FSM_Spec.step] in R2. rewrite EW in R2. cbn [obind] in R2. specialize (R2 eq_refl).
  destruct (write_effect space txg c c2 r2 o EW) as (o1 & Q1 & EO).
  pose proof (reach_inv v G c live clf tr R) as I1. pose proof (reach_inv v G _ _ _ _ R2) as I2.
  destruct (i_dev _ _ _ _ _ I1) as (d1 & D1 & V1). destruct (i_dev _ _ _ _ _ I2) as (d2 & D2 & V2).
  rewrite dev_run_app, D1 in D2. cbn [obind] in D2.
  assert (QE : forall x, In x o -> match x with VErase _ => False | _ => True end).
  { intros x Hx. assert (In x o1 \/ exists z l n, x = VWrite z l n) as [Hx1|(z & l & n & ->)].
    { destruct r2 as [lba|]; [destruct EO as (z & ->)|subst o; auto]. apply in_app_or in Hx.
      destruct Hx as [Hx|[<-|[]]]; eauto. }
    - destruct (Q1 x Hx1) as (z & [-> | ->]); exact Logic.I.
    - exact Logic.I. }
  assert (FU : forall z, full c z -> full c2 z).
  { intros z Fz. unfold full in *. apply (full_dz z). rewrite <- V2.
    apply (dev_full z o d1 d2 QE D2). rewrite V1. now apply full_dz. }
  cbn [live_next clean_next] in R2.
  destruct r2 as [lba|].
  - destruct EO as (zw & ->). rewrite fold_left_app, (apply_quiet cb o1 dk Q1). cbn [fold_left dev_apply disk].
    set (dd := mkdrp lba (is_compressed c') (zlen b) (zlen cb) (ck K cb)).
    exists (mkddml c2 (write_data dk lba cb) ch), (Ok dd). split; [reflexivity|]. split; [reflexivity|]. split; [exact FU|].
    exists (o1 ++ [VWrite zw lba space]). cbn [dcl disk].
    assert (PP : Permutation ((lba, space) :: live) (map ext ((dd, b) :: recs))).
    { cbn [map]. constructor. exact P. }
    assert (DJ : ForallOrdPairs disjoint (map ext ((dd, b) :: recs))).
    { eapply FOP_perm; [apply disjoint_sym|exact PP|]. apply (i_live _ _ _ _ _ I2). }
    split; [|split; [|split]].
    + split; [exists ((lba, space) :: live); auto|]. constructor.
      * cbn [content]. exists cb. cbn [d_pba d_csize d_ck dd]. split; [apply read_write|]. repeat split; try apply CD; lia.
      * apply write_keeps; [exact DJ|exact F].
    + intros z Fz [Z1 Z2]. cbn [d_pba dd] in *.
      destruct (dev_full z _ d1 d2 QE D2) as [_ NW]; [rewrite V1; now apply full_dz|].
      specialize (NW zw lba space ltac:(apply in_or_app; right; now left)).
      destruct (l_in v _ (i_live _ _ _ _ _ I2) (lba, space) (or_introl eq_refl)) as (_ & z' & Hz' & IZ & B1 & B2).
      (* the write went to zone [zw], so [lba] lies in [zw] *)
      assert (WZ : 0 <= zw < v_zones v /\ fst (v_lim v zw) <= lba < snd (v_lim v zw)).
      { rewrite dev_run_app in D2. destruct (dev_run v d1 o1) as [d3|] eqn:D3; cbn [obind] in D2; [|discriminate].
        cbn [dev_run dev_step] in D2. destruct (d3 zw) as [|wp|] eqn:Ew; try discriminate.
        destruct (_ && _) eqn:EB in D2; [|discriminate].
        apply andb_prop in EB. destruct EB as [EB B3]. apply andb_prop in EB. destruct EB as [B0 B4].
        assert (DI : dinv v d1).
        { intros y wq Hy. rewrite V1 in Hy. destruct (view (fs c) y) as [|oz x|s t|x] eqn:Vy; cbn [dz_v] in Hy; try discriminate.
          injection Hy as <-. pose proof (view_range (fs c) y ltac:(congruence)) as Ry.
          pose proof (r_len _ (i_rep _ _ _ _ _ I1)) as Rl. pose proof (i_tot _ _ _ _ _ I1) as Rt.
          pose proof (i_zone _ _ _ _ _ I1 y ltac:(lia)) as ZI. rewrite Vy in ZI. cbn [zone_inv] in ZI.
          unfold zstart, zend in *. lia. }
        assert (DI3 : dinv v d3).
        { clear - G DI D3. revert d1 DI D3. induction o1 as [|x o1 IHo]; intros d1 DI D3.
          - cbn in D3. now injection D3 as <-.
          - cbn [dev_run] in D3. destruct (dev_step v d1 x) as [dx|] eqn:Ex; cbn [obind] in D3; [|discriminate].
            eapply IHo; [|exact D3]. eapply dev_step_dinv; eauto. }
        destruct (DI3 zw wp Ew) as [A1 A2]. split; [exact A1|]. lia. }
      assert (0 <= z < v_zones v).
      { unfold full in Fz. destruct (Z_lt_dec z 0) as [n|n]; [rewrite view_out in Fz; [contradiction|lia]|].
        destruct (Z_lt_dec z (zlen (zones (fs c)))) as [m|m]; [|rewrite view_out in Fz; [contradiction|lia]].
        pose proof (r_len _ (i_rep _ _ _ _ _ I1)). pose proof (i_tot _ _ _ _ _ I1). lia. }
      pose proof (proj2 (g_zone_of v G lba z) ltac:(auto)) as X1.
      pose proof (proj2 (g_zone_of v G lba zw) WZ) as X2. congruence.
    + intros x Hx. exact (disj_cons_other _ _ DJ x Hx).
    + intros E. specialize (CN E). injection CN as -> ->. repeat split; reflexivity.
  - subst o. rewrite (apply_quiet cb o1 _ Q1).
    exists (mkddml c2 dk ch), (Err ENOSPC). split; [reflexivity|]. split; [reflexivity|]. split; [exact FU|].
    exists o1. split; [reflexivity|]. split; [exists live; auto|exact F].
Qed.

Lemma remove_one_perm (e : extent) l : In e l -> Permutation l (e :: remove_one e l).
Proof.
  induction l as [|x l IH]; [intros []|]. intros H. cbn [remove_one].
  destruct (extent_eqb e x) eqn:E.
  - apply extent_eqb_eq in E. now subst.
  - destruct H as [->|H]; [rewrite (proj2 (extent_eqb_eq e e) eq_refl) in E; discriminate|].
    rewrite perm_swap. constructor. auto.
Qed.

Lemma free_spec c dk recs recs' clf tr d b ch :
  Store c dk recs clf tr -> Permutation recs ((d, b) :: recs') ->
  exists c', delete_direct v d (mkddml c dk ch) = Some (mkddml c' dk ch) /\
  Store c' dk recs' false tr /\ (forall z, full c z -> full c' z).
Proof.
  intros ((live & P & R) & F) PR. unfold delete_direct. cbn [dcl disk dcache].
  assert (P2 : Permutation live (ext (d, b) :: map ext recs')).
  { rewrite P. change (ext (d, b) :: map ext recs') with (map ext ((d, b) :: recs')). now apply Permutation_map. }
  assert (IN : In (d_pba d, asize d) live) by (eapply Permutation_in; [apply Permutation_sym; exact P2|now left]).
  pose proof (C13_never_panics v c live clf tr (CFree (d_pba d) (asize d)) G R IN) as NP. cbn [FSM_Spec.step] in NP.
  destruct (free v (d_pba d) (asize d) c) as [c'|] eqn:E; [|contradiction NP; reflexivity]. cbn [obind].
  pose proof (reach_step v c live clf tr (CFree (d_pba d) (asize d)) c' RUnit [] R IN) as R2.
  cbn [FSM_Spec.step] in R2. rewrite E in R2. specialize (R2 eq_refl). cbn [live_next clean_next] in R2.
  rewrite app_nil_r in R2.
  exists c'. split; [reflexivity|]. split.
  - split.
    + exists (remove_one (d_pba d, asize d) live). split; [|exact R2].
      apply (Permutation_cons_inv (a := (d_pba d, asize d))). rewrite <- (remove_one_perm _ _ IN). exact P2.
    + rewrite Forall_forall in *. intros x Hx. apply F. eapply Permutation_in; [apply Permutation_sym; exact PR|]. now right.
  - intros z Fz.
    destruct (i_dev _ _ _ _ _ (reach_inv v G _ _ _ _ R)) as (d1 & D1 & V1).
    destruct (i_dev _ _ _ _ _ (reach_inv v G _ _ _ _ R2)) as (d2 & D2 & V2).
    rewrite D1 in D2. injection D2 as <-. unfold full in *. apply (full_dz z). rewrite <- V2, V1. now apply full_dz.
Qed.

Lemma Store_perm c dk recs recs' clf tr : Store c dk recs clf tr -> Permutation recs recs' -> Store c dk recs' clf tr.
Proof.
  intros ((live & P & R) & F) H. split.
  - exists live. split; [rewrite P; now apply Permutation_map|exact R].
  - eapply Permutation_Forall; eauto.
Qed.

(** Records held at the same time lie at different addresses. *)
Lemma Store_pba c dk recs clf tr p q l : Store c dk recs clf tr -> Permutation recs (p :: q :: l) ->
  d_pba (fst p) <> d_pba (fst q).
Proof.
  intros S P E. pose proof (Store_perm _ _ _ _ _ _ S P) as ((live & P2 & R) & F).
  pose proof (reach_inv v G _ _ _ _ R) as I1.
  assert (D : ForallOrdPairs disjoint (map ext (p :: q :: l))).
  { eapply FOP_perm; [apply disjoint_sym|exact P2|apply (i_live _ _ _ _ _ I1)]. }
  cbn [map] in D. pose proof (disj_cons_other _ _ D (ext q) (or_introl eq_refl) (d_pba (fst p))) as X.
  unfold ext in X. cbn [fst snd] in X.
  assert (A : forall y, In y (p :: q :: l) -> 0 < asize (fst y)).
  { intros y Hy. rewrite Forall_forall in F. specialize (F y Hy). destruct y as [d b].
    destruct F as (st & _ & _ & _ & _ & L). cbn [fst]. apply div_ceil_pos; [apply BPL_pos|lia]. }
  pose proof (A p (or_introl eq_refl)). pose proof (A q (or_intror (or_introl eq_refl))). apply X. lia.
Qed.

Lemma advance_spec c dk recs clf tr ch : Store c dk recs clf tr ->
  exists c' dk' o, ddml_advance v junk (mkddml c dk ch) = mkddml c' dk' ch /\ Store c' dk' recs false (tr ++ o).
Proof.
  intros ((live & P & R) & F). unfold ddml_advance. cbn [dcl disk dcache].
  destruct (advance c) as [c' o] eqn:E. exists c', (fold_left (dev_apply v junk []) o dk), o. split; [reflexivity|].
  assert (ST : FSM_Spec.step v c CAdvance = Some (c', RUnit, o)) by (cbn [FSM_Spec.step]; now rewrite E).
  pose proof (reach_step v c live clf tr CAdvance c' RUnit o R Logic.I ST) as R2. cbn [live_next clean_next] in R2.
  split; [exists live; auto|].
  rewrite Forall_forall in *. intros p Hp. eapply content_ext; [|apply F; exact Hp].
  intros l Hl.
  assert (EO : forall x, In x o -> exists z, x = VErase z /\ disjoint (ext p) (fst (v_lim v z), snd (v_lim v z) - fst (v_lim v z))).
  { intros x Hx. assert (exists z, x = VErase z) as (z & ->).
    { unfold advance in E. destruct (reap (fs c)) as [f zs]. injection E as _ <-. apply in_map_iff in Hx. destruct Hx as (z & <- & _). eauto. }
    exists z. split; [reflexivity|]. apply (C13_erase_only_free v c live clf tr c' RUnit o z (ext p) G R ST Hx).
    eapply Permutation_in; [apply Permutation_sym; exact P|]. now apply in_map. }
  clear - EO Hl. revert dk. induction o as [|x o IH]; intros dk; [reflexivity|]. cbn [fold_left].
  rewrite IH by (intros y Hy; apply EO; now right).
  destruct (EO x (or_introl eq_refl)) as (z & -> & D). cbn [dev_apply].
  destruct ((fst (v_lim v z) <=? l) && (l <? snd (v_lim v z))) eqn:E; [|reflexivity].
  exfalso. apply andb_prop in E. apply (D l). unfold ext. cbn [fst snd]. lia.
Qed.

Definition quiet (o : vop) : Prop := match o with VWrite _ _ _ | VErase _ => False | _ => True end.

Lemma apply_quiet2 b o dk : Forall quiet o -> fold_left (dev_apply v junk b) o dk = dk.
Proof.
  revert dk. induction o as [|x o IH]; intros dk H; [reflexivity|]. inversion H; subst. cbn [fold_left].
  destruct x; cbn [quiet] in *; try contradiction; cbn [dev_apply]; auto.
Qed.

Lemma waste_all_quiet : forall zs f a f' a' o, waste_all v zs f a = Some (f', a', o) -> Forall quiet o.
Proof.
  induction zs as [|z zs IH]; cbn [waste_all]; intros f a f' a' o E; [injection E as <- <- <-; constructor|].
  destruct (zm_get z (opens f)) as [oz|]; cbn [obind] in E; [|discriminate].
  destruct (waste_space z _ f) as [f1|]; cbn [obind] in E; [|discriminate].
  destruct (waste_all v zs f1 _) as [[[f2 a2] o2]|] eqn:E2; cbn [obind] in E; [|discriminate].
  injection E as <- <- <-. constructor; [exact Logic.I|eauto].
Qed.

Lemma flush_quiet i c c' o : flush v i c = Some (c', o) -> Forall quiet o.
Proof.
  unfold flush. destruct (waste_all v _ (fs c) (alloc_space c)) as [[[f a] o1]|] eqn:E; cbn [obind]; [|discriminate].
  destruct (write_blocks f i _ (sm c)); cbn [obind]; [|discriminate]. intros H. injection H as <- <-.
  eapply waste_all_quiet; eauto.
Qed.

Lemma flush_store c dk recs clf tr ch : Store c dk recs clf tr ->
  exists c' o, ddml_flush v junk (mkddml c dk ch) = Some (mkddml c' dk ch) /\ Store c' dk recs true (tr ++ o).
Proof.
  intros ((live & P & R) & F). unfold ddml_flush. cbn [dcl disk dcache].
  pose proof (C13_never_panics v c live clf tr CSync G R Logic.I) as NP. cbn [FSM_Spec.step] in NP.
  destruct (flush v 0 c) as [[c1 o1]|] eqn:E1; cbn [obind] in *; [|contradiction NP; reflexivity].
  destruct (flush v 1 c1) as [[c2 o2]|] eqn:E2; cbn [obind] in *; [|contradiction NP; reflexivity].
  exists c2, (o1 ++ o2). rewrite apply_quiet2 by (apply Forall_app; split; eapply flush_quiet; eauto).
  split; [reflexivity|]. split; [|exact F]. exists live. split; [exact P|].
  apply (reach_step v c live clf tr CSync c2 RUnit (o1 ++ o2) R Logic.I). cbn [FSM_Spec.step]. rewrite E1. cbn [obind]. now rewrite E2.
Qed.

Lemma deser_list_quiet : forall ds z f f' o, deser_list v z ds f = Some (f', o) -> Forall quiet o.
Proof.
  induction ds as [|d ds IH]; cbn [deser_list]; intros z f f' o E; [injection E as <- <-; constructor|].
  destruct (deser_one v z d f) as [[f1 o1]|] eqn:E1; cbn [obind] in E; [|discriminate].
  destruct (deser_list v (z + 1) ds f1) as [[f2 o2]|] eqn:E2; cbn [obind] in E; [|discriminate].
  injection E as <- <-. apply Forall_app. split; [|eauto].
  unfold deser_one in E1. destruct (zo_te d >? 0); [|injection E1 as <- <-; constructor].
  destruct (open_zone z _ _ 0 (zo_ts d) f) as [[f3 r3]|]; cbn [obind] in E1; [|discriminate].
  destruct (zo_alloc d =? U32MAX).
  - destruct (finish_zone z _ f3) as [[f4 n]|]; cbn [obind] in E1; [|discriminate].
    destruct (lget _ z); cbn [obind] in E1; [|discriminate]. injection E1 as <- <-. constructor.
  - destruct (zo_alloc d >? 0).
    + destruct (try_allocate (zo_alloc d) f3) as [[[f4 r4] nf]|]; cbn [obind] in E1; [|discriminate].
      destruct r4 as [[z' l']|]; cbn [obind] in E1; [|discriminate].
      destruct (z' =? z); cbn [oassert obind] in E1; [|discriminate].
      destruct (lget _ z); cbn [obind] in E1; [|discriminate]. injection E1 as <- <-. constructor; [exact Logic.I|constructor].
    + destruct (finish_zone z _ f3) as [[f4 n]|]; cbn [obind] in E1; [|discriminate].
      destruct (kill_zone z f4) as [[f5 n5]|]; cbn [obind] in E1; [|discriminate].
      destruct (lget _ z); cbn [obind] in E1; [|discriminate]. injection E1 as <- <-. constructor.
Qed.

Lemma remount_store c dk recs tr ch : Store c dk recs true tr ->
  exists c' o, ddml_remount v junk (mkddml c dk ch) = Some (mkddml c' dk []) /\ Store c' dk recs true (tr ++ o).
Proof.
  intros ((live & P & R) & F). unfold ddml_remount. cbn [dcl disk dcache].
  pose proof (C13_never_panics v c live true tr CRemount G R eq_refl) as NP. cbn [FSM_Spec.step] in NP.
  destruct (reopen v c) as [[c1 o1]|] eqn:E1; cbn [obind] in *; [|contradiction NP; reflexivity].
  exists c1, o1. rewrite apply_quiet2.
  - split; [reflexivity|]. split; [|exact F]. exists live. split; [exact P|].
    apply (reach_step v c live true tr CRemount c1 RUnit o1 R eq_refl). cbn [FSM_Spec.step]. now rewrite E1.
  - unfold reopen, deserialize in E1.
    destruct (omap (sm c 0) _) as [bs|]; cbn [obind] in E1; [|discriminate].
    destruct (zlen (concat bs) =? v_zones v); cbn [oassert obind] in E1; [|discriminate].
    destruct (deser_list v 0 (concat bs) _) as [[f o]|] eqn:E; cbn [obind] in E1; [|discriminate].
    destruct (allocated_total _); cbn [obind] in E1; [|discriminate]. injection E1 as <- <-. eapply deser_list_quiet; eauto.
Qed.

End Store.
