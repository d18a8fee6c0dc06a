(** C46 (and C68): labels. *)
From Verif Require Import Common SG_Model SG_Props FSM_Model Label_Model.

(** ** The encodings *)

Definition law {T} (f : fmt T) (P : T -> Prop) : Prop := forall x s, P x -> dec f (enc f x ++ s) = Some (x, s).

Lemma le_len n x : zlen (le_bytes n x) = Z.of_nat n.
Proof. revert x. induction n as [|n IH]; intros x; [reflexivity|]. cbn [le_bytes]. rewrite zlen_cons, IH. lia. Qed.

Lemma le_round n : forall x, 0 <= x < 256 ^ Z.of_nat n -> le_val (le_bytes n x) = x.
Proof.
  induction n as [|n IH]; intros x Hx.
  - cbn in *. lia.
  - cbn [le_bytes]. change (le_val (x mod 256 :: le_bytes n (x / 256))) with (x mod 256 + 256 * le_val (le_bytes n (x / 256))).
    rewrite IH; [pose proof (Z.div_mod x 256); lia|].
    replace (Z.of_nat (S n)) with (Z.of_nat n + 1) in Hx by lia. rewrite Z.pow_add_r in Hx by lia.
    split; [apply Z.div_pos; lia|]. apply Z.div_lt_upper_bound; lia.
Qed.

Lemma ztake_app_l {A} n (a b : list A) : zlen a = n -> ztake n (a ++ b) = a.
Proof. intros <-. unfold ztake, zlen. rewrite Nat2Z.id. now rewrite firstn_app, Nat.sub_diag, firstn_all, app_nil_r. Qed.

Lemma zdrop_app_l {A} n (a b : list A) : zlen a = n -> zdrop n (a ++ b) = b.
Proof. intros <-. unfold zdrop, zlen. rewrite Nat2Z.id. now rewrite skipn_app, Nat.sub_diag, skipn_all. Qed.

Lemma law_uint n : law (f_uint n) (fun x => 0 <= x < 256 ^ Z.of_nat n).
Proof.
  intros x s Hx. cbn [f_uint enc dec]. rewrite zlen_app, le_len. pose proof (zlen_nonneg s).
  destruct (Z.ltb_spec (Z.of_nat n + zlen s) (Z.of_nat n)); [lia|].
  rewrite ztake_app_l, zdrop_app_l by apply le_len. now rewrite le_round.
Qed.

Lemma law_bytes n : law (f_bytes n) (fun b => zlen b = n).
Proof.
  intros x s Hx. cbn [f_bytes enc dec]. rewrite zlen_app. pose proof (zlen_nonneg s).
  destruct (Z.ltb_spec (zlen x + zlen s) n); [lia|]. now rewrite ztake_app_l, zdrop_app_l.
Qed.

Lemma law_pair {A B} (a : fmt A) (b : fmt B) P Q : law a P -> law b Q -> law (f_pair a b) (fun p => P (fst p) /\ Q (snd p)).
Proof.
  intros La Lb [x y] s [Hx Hy]. cbn [f_pair enc dec fst snd] in *. rewrite <- app_assoc, La by exact Hx. cbn [obind].
  rewrite Lb by exact Hy. reflexivity.
Qed.

Lemma law_map {A B} (a : fmt A) (f : A -> B) g P : law a P -> (forall y, f (g y) = y) -> law (f_map a f g) (fun y => P (g y)).
Proof. intros La E y s Hy. cbn [f_map enc dec]. rewrite La by exact Hy. cbn [obind]. now rewrite E. Qed.

Lemma law_vec {A} (a : fmt A) P : law a P -> law (f_vec a) (fun l => zlen l < 2 ^ 32 /\ Forall P l).
Proof.
  intros La l s [Hl F]. cbn [f_vec enc dec]. rewrite <- app_assoc.
  change (le_bytes 4 (zlen l)) with (enc (f_uint 4) (zlen l)).
  rewrite law_uint; [|pose proof (zlen_nonneg l); change (256 ^ Z.of_nat 4) with (2 ^ 32); lia]. cbn [obind].
  unfold zlen. rewrite Nat2Z.id. clear Hl. induction F as [|x l Px F IH]; [reflexivity|].
  cbn [length dec_n flat_map]. rewrite <- app_assoc, La by exact Px. cbn [obind]. rewrite IH. reflexivity.
Qed.

Lemma law_weak {T} (f : fmt T) (P Q : T -> Prop) : law f P -> (forall x, Q x -> P x) -> law f Q.
Proof. intros L H x s Hx. apply L. auto. Qed.

(** ** Labels that can occur: every field in the range of its type *)

Definition uint (bits x : Z) : Prop := 0 <= x < 2 ^ bits.
Definition uuid (u : list Z) : Prop := zlen u = 16.
Definition uuids (l : list (list Z)) : Prop := zlen l < 2 ^ 32 /\ Forall uuid l.

Definition block_ok (l : block_label) : Prop :=
  uuid (b_uuid l) /\ uint 64 (b_lpz l) /\ uint 64 (b_lbas l) /\ uint 64 (b_sms l) /\ uint 32 (b_txg l).
Definition mirror_ok (l : mirror_label) : Prop := uuid (m_uuid l) /\ uuids (m_children l).
Definition raid_ok (l : raid_label) : Prop :=
  match l with
  | LNull u c => uuid u /\ uuid c
  | LRaid u cs k f ch => uuid u /\ uint 64 cs /\ uint 16 k /\ uint 16 f /\ uuids ch
  end.
Definition pool_ok (l : pool_label) : Prop :=
  zlen (p_name l) < 2 ^ 32 /\ Forall (uint 8) (p_name l) /\ uuid (p_uuid l) /\ uuids (p_children l).
Definition drp_ok (d : drp_label) : Prop :=
  uint 16 (q_cluster d) /\ uint 64 (q_lba d) /\ uint 8 (q_compressed d) /\ uint 32 (q_lsize d) /\ uint 32 (q_csize d) /\ uint 64 (q_checksum d).
Definition tree_ok {A} (P : A -> Prop) (t : tree_label A) : Prop :=
  uint 8 (t_height t) /\ zlen (t_reserved t) = 7 /\
  (let '(a, (b, (c, (d, e)))) := t_limits t in uint 16 a /\ uint 16 b /\ uint 16 c /\ uint 16 d /\ uint 64 e) /\
  P (t_root t) /\ uint 32 (fst (t_txgs t)) /\ uint 32 (snd (t_txgs t)).
Definition idml_ok (l : idml_label) : Prop :=
  tree_ok drp_ok (i_alloct l) /\ uint 64 (i_next l) /\ tree_ok drp_ok (i_ridt l) /\ uint 32 (i_txg l).

Definition label_ok (l : label) : Prop :=
  block_ok (l_block l) /\ mirror_ok (l_mirror l) /\ raid_ok (l_raid l) /\ pool_ok (l_pool l) /\ idml_ok (l_idml l) /\ tree_ok (uint 64) (l_db l).

Lemma law_u8 : law u8 (uint 8). Proof. exact (law_uint 1). Qed.
Lemma law_u16 : law u16 (uint 16). Proof. exact (law_uint 2). Qed.
Lemma law_u32 : law u32 (uint 32). Proof. exact (law_uint 4). Qed.
Lemma law_u64 : law u64 (uint 64). Proof. exact (law_uint 8). Qed.
Lemma law_uuid : law f_uuid uuid. Proof. exact (law_bytes 16). Qed.
Lemma law_uuids : law (f_vec f_uuid) uuids. Proof. apply law_vec, law_uuid. Qed.

Lemma law_block : law f_block block_ok.
Proof.
  eapply law_weak.
  - apply law_map; [|intros []; reflexivity]. apply law_pair; [apply law_uuid|]. apply law_pair; [apply law_u64|].
    apply law_pair; [apply law_u64|]. apply law_pair; [apply law_u64|apply law_u32].
  - intros l H. exact H.
Qed.

Lemma law_mirror : law f_mirror mirror_ok.
Proof.
  eapply law_weak.
  - apply law_map; [|intros []; reflexivity]. apply law_pair; [apply law_uuid|apply law_uuids].
  - intros l H. exact H.
Qed.

Lemma law_raid : law f_raid raid_ok.
Proof.
  intros [u c|u cs k f ch] s H; cbn [f_raid enc dec raid_ok] in *; rewrite <- app_assoc, law_u32 by (unfold uint; lia); cbn [obind Z.eqb].
  - unfold f_null. rewrite (law_pair _ _ _ _ law_uuid law_uuid (u, c) s) by exact H. reflexivity.
  - unfold f_raid'.
    rewrite (law_pair _ _ _ _ law_uuid (law_pair _ _ _ _ law_u64 (law_pair _ _ _ _ law_u16 (law_pair _ _ _ _ law_u16 (law_pair _ _ _ _ law_u32 law_uuids)))) (u, (cs, (k, (f, (0, ch))))) s).
    + reflexivity.
    + cbn [fst snd]. unfold uint at 4. intuition lia.
Qed.

Lemma law_pool : law f_pool pool_ok.
Proof.
  eapply law_weak.
  - apply law_map; [|intros []; reflexivity]. apply law_pair; [apply law_vec, law_u8|]. apply law_pair; [apply law_uuid|apply law_uuids].
  - intros l (A & B & C). exact (conj (conj A B) C).
Qed.

Lemma law_drp : law f_drp drp_ok.
Proof.
  eapply law_weak.
  - apply law_map; [|intros []; reflexivity]. apply law_pair; [apply law_u16|]. apply law_pair; [apply law_u64|].
    apply law_pair; [apply law_u8|]. apply law_pair; [apply law_u32|]. apply law_pair; [apply law_u32|apply law_u64].
  - intros l H. exact H.
Qed.

Lemma law_tree {A} (a : fmt A) P : law a P -> law (f_tree a) (tree_ok P).
Proof.
  intros La. eapply law_weak.
  - apply law_map; [|intros []; reflexivity]. apply law_pair; [apply law_u8|]. apply law_pair; [apply (law_bytes 7)|].
    apply law_pair; [|apply law_pair; [exact La|apply law_pair; apply law_u32]].
    apply law_pair; [apply law_u16|]. apply law_pair; [apply law_u16|]. apply law_pair; [apply law_u16|]. apply law_pair; [apply law_u16|apply law_u64].
  - intros [h r [a1 [b1 [c1 [d1 e1]]]] x t] H. exact H.
Qed.

Lemma law_idml : law f_idml idml_ok.
Proof.
  eapply law_weak.
  - apply law_map; [|intros []; reflexivity]. apply law_pair; [apply law_tree, law_drp|]. apply law_pair; [apply law_u64|].
    apply law_pair; [apply law_tree, law_drp|apply law_u32].
  - intros l H. exact H.
Qed.

Lemma parse_ok l s : label_ok l -> label_parse (concat (rev (label_parts l)) ++ s) = Some l.
Proof.
  intros (B & M & R & P & I & D). cbn [label_parts rev app concat]. rewrite <- !app_assoc. unfold label_parse.
  rewrite law_block by exact B. cbn [obind]. rewrite law_mirror by exact M. cbn [obind]. rewrite law_raid by exact R. cbn [obind].
  rewrite law_pool by exact P. cbn [obind]. rewrite law_idml by exact I. cbn [obind]. cbn [app].
  rewrite (law_tree u64 (uint 64) law_u64) by exact D. cbn [obind]. now destruct l.
Qed.

(** ** Sizes *)

Lemma len_vec_uuid l : Forall uuid l -> zlen (flat_map (enc f_uuid) l) = 16 * zlen l.
Proof.
  induction 1 as [|u l Hu F IH]; [reflexivity|]. cbn [flat_map]. rewrite zlen_app, IH, zlen_cons. change (enc f_uuid u) with u.
  unfold uuid in Hu. lia.
Qed.

Lemma len_vec_u8 l : zlen (flat_map (enc u8) l) = zlen l.
Proof. induction l as [|x l IH]; [reflexivity|]. cbn [flat_map]. rewrite zlen_app, IH, zlen_cons. unfold u8, f_uint. cbn [enc]. rewrite le_len. lia. Qed.

(** The limits within which the code can write a label. *)
Definition label_small (l : label) : Prop :=
  zlen (m_children (l_mirror l)) <= 254 /\
  match l_raid l with LNull _ _ => True | LRaid _ _ _ _ ch => zlen ch <= 253 end /\
  zlen (p_name (l_pool l)) + 16 * zlen (p_children (l_pool l)) <= 4071.

Lemma len_block l : block_ok l -> zlen (enc f_block l) = 44.
Proof.
  intros (U & _). unfold f_block, f_map, f_pair, u64, u32, f_uint, f_uuid, f_bytes. cbn [enc fst snd]. rewrite !zlen_app, !le_len.
  unfold uuid in U. lia.
Qed.

Lemma len_drp l : zlen (enc f_drp l) = 27.
Proof. unfold f_drp, f_map, f_pair, u64, u32, u16, u8, f_uint. cbn [enc fst snd]. rewrite !zlen_app, !le_len. lia. Qed.

Lemma len_tree {A} (a : fmt A) P n t : (forall x, zlen (enc a x) = n) -> tree_ok P t -> zlen (enc (f_tree a) t) = 32 + n.
Proof.
  intros E (_ & R & _). destruct t as [h r [a1 [b1 [c1 [d1 e1]]]] x [t1 t2]]. unfold f_tree, f_map, f_pair, u64, u32, u16, u8, f_uint, f_bytes.
  cbn [enc fst snd t_height t_reserved t_limits t_root t_txgs] in *. rewrite !zlen_app, !le_len, E. lia.
Qed.

Lemma parts_small l : label_ok l -> label_small l -> Forall (fun p => 0 < zlen p < 4096) (label_parts l) /\ zlen (concat (label_parts l)) <= 16352.
Proof.
  intros (B & M & R & P & I & D) (S1 & S2 & S3).
  assert (L1 : zlen (enc f_db (l_db l)) = 40).
  { unfold f_db. rewrite (len_tree u64 (uint 64) 8); [reflexivity| |exact D]. intros x. unfold u64, f_uint. cbn [enc]. apply le_len. }
  assert (L2 : zlen (enc f_idml (l_idml l)) = 130).
  { destruct I as (I1 & _ & I2 & _). unfold f_idml, f_map, f_pair. cbn [enc fst snd]. rewrite !zlen_app, !(len_tree f_drp drp_ok 27) by (assumption || apply len_drp).
    unfold u64, u32, f_uint. cbn [enc]. rewrite !le_len. lia. }
  assert (L3 : zlen (enc f_pool (l_pool l)) = 24 + zlen (p_name (l_pool l)) + 16 * zlen (p_children (l_pool l))).
  { destruct P as (_ & _ & U & _ & UU). unfold f_pool, f_map, f_pair, f_vec. cbn [enc fst snd]. rewrite !zlen_app, len_vec_u8, len_vec_uuid, !le_len by exact UU.
    unfold f_uuid, f_bytes. cbn [enc]. unfold uuid in U. lia. }
  assert (L4 : 0 < zlen (enc f_raid (l_raid l)) < 4096).
  { destruct (l_raid l) as [u c|u cs k f ch]; cbn [raid_ok] in R; cbn [f_raid enc].
    - destruct R as (U1 & U2). unfold f_null, f_pair, u32, f_uint, f_uuid, f_bytes. cbn [enc fst snd]. rewrite !zlen_app, !le_len. unfold uuid in *. lia.
    - destruct R as (U1 & _ & _ & _ & _ & UU). unfold f_raid', f_pair, f_vec. cbn [enc fst snd].
      unfold u64, u32, u16, f_uint. cbn [enc]. rewrite !zlen_app, len_vec_uuid, !le_len by exact UU. pose proof (zlen_nonneg ch).
      unfold f_uuid, f_bytes. cbn [enc]. unfold uuid in *. lia. }
  assert (L5 : 0 < zlen (enc f_mirror (l_mirror l)) < 4096).
  { destruct M as (U & _ & UU). unfold f_mirror, f_map, f_pair, f_vec. cbn [enc fst snd]. rewrite !zlen_app, len_vec_uuid, !le_len by exact UU.
    pose proof (zlen_nonneg (m_children (l_mirror l))). unfold f_uuid, f_bytes. cbn [enc]. unfold uuid in *. lia. }
  pose proof (len_block _ B) as L6. pose proof (zlen_nonneg (p_name (l_pool l))). pose proof (zlen_nonneg (p_children (l_pool l))).
  split.
  - unfold label_parts. repeat (apply Forall_cons; [lia|]). apply Forall_nil.
  - cbn [label_parts concat]. rewrite !zlen_app, zlen_nil. lia.
Qed.

Lemma pad_small bufs : Forall (fun p => 0 < zlen p < 4096) bufs -> exists out, copy_and_pad_sglist bufs = Some out.
Proof.
  intros F. unfold copy_and_pad_sglist. destruct (existsb unaligned bufs); [|eauto].
  assert (X : forall acc out, exists r, pad_loop bufs acc out = Some r).
  { induction F as [|b bufs Hb F IH]; intros acc out; cbn [pad_loop]; [eauto|].
    rewrite Z.mod_small by (unfold BYTES_PER_LBA; lia). destruct (Z.eqb_spec (zlen b) 0); [lia|].
    replace (zlen b >? BYTES_PER_LBA) with false by (unfold BYTES_PER_LBA; lia).
    destruct acc as [a|]; [|apply IH]. destruct (zlen (a ++ b) mod BYTES_PER_LBA =? 0); apply IH. }
  destruct (X None []) as [[[a|] out] ->]; eauto.
Qed.

(** ** Reading back *)

(** What the import of a disk finds: [None] if no label is accepted. *)
Definition mount H (dev : list Z) : option label :=
  match read_label H (from_disk dev) with LOk s => label_parse s | LErr _ => None end.

Definition reads H (b : list Z) (l : label) : Prop := exists s, label_new H b = LOk s /\ label_parse s = Some l.
Definition rejected H (b : list Z) : Prop := exists e, label_new H b = LErr e.

Section C46.
Context (H : list Z -> Z).
Hypothesis HR : forall l, uint 64 (H l).

Lemma be_len n x : zlen (be_bytes n x) = Z.of_nat n.
Proof. unfold be_bytes, zlen. rewrite rev_length. apply le_len. Qed.

Lemma be_round x : uint 64 x -> be_val (be_bytes 8 x) = x.
Proof. intros U. unfold be_val, be_bytes. rewrite rev_involutive. apply le_round. exact U. Qed.

Lemma image_ok l : label_ok l -> label_small l ->
  exists img, label_image H (label_parts l) = Some img /\ 0 < zlen img <= LABEL_SIZE /\ zlen img mod 4096 = 0 /\
    forall tail, zlen img + zlen tail = LABEL_SIZE -> reads H (img ++ tail) l.
Proof.
  intros V SM. destruct (parts_small l V SM) as [F T]. unfold label_image, into_sglist.
  set (c := concat (rev (label_parts l))).
  assert (LC : zlen c = zlen (concat (label_parts l))).
  { unfold c. clear. induction (label_parts l) as [|x ps IH]; [reflexivity|]. cbn [rev]. rewrite concat_app, zlen_app, IH. cbn [concat]. rewrite app_nil_r, zlen_app. lia. }
  set (len := be_bytes 8 (zlen c)). set (sum := be_bytes 8 (H (len ++ c))). set (hd := MAGIC ++ sum ++ len).
  assert (LH : zlen hd = 32) by (unfold hd, sum, len; rewrite !zlen_app, !be_len; reflexivity).
  destruct (pad_small (hd :: rev (label_parts l))) as [out E].
  { constructor; [lia|]. apply Forall_forall. intros x Hx. rewrite Forall_forall in F. apply F. now apply in_rev. }
  rewrite E. cbn [obind]. destruct (C55_pad_preserves_data _ _ E) as (AL & n & Hn & EC). cbn [concat] in EC. fold c in EC.
  exists (concat out). split; [reflexivity|].
  assert (M : zlen (concat out) mod 4096 = 0).
  { clear - AL. induction AL as [|b out Hb AL IH]; [reflexivity|]. cbn [concat]. rewrite zlen_app, <- Zplus_mod_idemp_l, Hb. exact IH. }
  pose proof (zlen_nonneg c) as NC.
  assert (LO : zlen (concat out) = 32 + zlen c + n) by (rewrite EC, !zlen_app, LH, zlen_repeat by lia; reflexivity).
  split.
  { unfold LABEL_SIZE, LABEL_LBAS, BYTES_PER_LBA. rewrite LO in *. split; [lia|].
    pose proof (Z.div_mod (32 + zlen c + n) 4096 ltac:(lia)). rewrite M in *. lia. }
  split; [exact M|]. intros tail LT. unfold reads, label_new.
  assert (LB : zlen (concat out ++ tail) = 16384) by (rewrite zlen_app; exact LT).
  rewrite LB. cbn [Z.ltb Z.compare Pos.compare Pos.compare_cont].
  rewrite EC. unfold hd. rewrite <- !app_assoc.
  rewrite (ztake_app_l 16 MAGIC) by reflexivity. destruct (list_eq_dec Z.eq_dec MAGIC MAGIC) as [_|X]; [|contradiction]. cbn [negb].
  replace (zdrop 16 (MAGIC ++ sum ++ len ++ c ++ zrepeat 0 n ++ tail)) with (sum ++ len ++ c ++ zrepeat 0 n ++ tail)
    by (symmetry; apply zdrop_app_l; reflexivity).
  rewrite (ztake_app_l 8 sum) by apply be_len.
  replace (zdrop 24 (MAGIC ++ sum ++ len ++ c ++ zrepeat 0 n ++ tail)) with (len ++ c ++ zrepeat 0 n ++ tail).
  2:{ symmetry. rewrite app_assoc. apply zdrop_app_l. rewrite zlen_app. unfold sum. rewrite be_len. reflexivity. }
  rewrite (ztake_app_l 8 len) by apply be_len.
  replace (zdrop 32 (MAGIC ++ sum ++ len ++ c ++ zrepeat 0 n ++ tail)) with (c ++ zrepeat 0 n ++ tail).
  2:{ symmetry. rewrite !app_assoc, <- !app_assoc. rewrite (app_assoc sum), (app_assoc MAGIC). apply zdrop_app_l.
      rewrite !zlen_app. unfold sum, len. rewrite !be_len. reflexivity. }
  unfold len at 1 2 3 4. rewrite be_round by (unfold uint; lia).
  rewrite Z.mod_small by (rewrite LC; lia).
  destruct (Z.ltb_spec (32 + zlen c) 32); [lia|]. destruct (Z.ltb_spec 16384 (32 + zlen c)); [lia|]. cbn [orb].
  unfold sum. rewrite be_round by apply HR. replace (32 + zlen c - 32) with (zlen c) by lia. rewrite (ztake_app_l (zlen c) c) by reflexivity.
  fold len. rewrite Z.eqb_refl. eexists. split; [reflexivity|]. now apply parse_ok.
Qed.

Lemma area_splice_same i img dev : 0 <= i <= 1 -> zlen img <= LABEL_SIZE -> 2 * LABEL_SIZE <= zlen dev ->
  exists tail, area i (splice (i * LABEL_SIZE) img dev) = img ++ tail /\ zlen img + zlen tail = LABEL_SIZE.
Proof using. clear H HR.
  intros Hi L D. unfold area, splice. pose proof (zlen_nonneg img) as N. assert (LS : LABEL_SIZE = 16384) by reflexivity.
  rewrite (zdrop_app_l (i * LABEL_SIZE)) by (apply zlen_take; lia).
  rewrite ztake_app by lia. rewrite (ztake_all LABEL_SIZE img) by lia. eexists. split; [reflexivity|].
  set (q := zdrop (i * LABEL_SIZE + zlen img) dev).
  assert (zlen q = zlen dev - (i * LABEL_SIZE + zlen img)) by (unfold q; rewrite zlen_drop by lia; lia).
  rewrite zlen_take by lia. lia.
Qed.

Lemma area_splice_other i j img dev : 0 <= i <= 1 -> 0 <= j <= 1 -> i <> j -> zlen img <= LABEL_SIZE -> 2 * LABEL_SIZE <= zlen dev ->
  area j (splice (i * LABEL_SIZE) img dev) = area j dev.
Proof using. clear H HR.
  intros Hi Hj N L D. unfold area, splice. pose proof (zlen_nonneg img) as NN. assert (LS : LABEL_SIZE = 16384) by reflexivity.
  assert ((i = 0 /\ j = 1) \/ (i = 1 /\ j = 0)) as [[-> ->]|[-> ->]] by lia.
  - rewrite (ztake_0 (0 * LABEL_SIZE)) by lia. cbn [app]. rewrite zdrop_app by lia. rewrite (zdrop_all _ img) by lia. cbn [app].
    rewrite zdrop_zdrop by lia. do 2 f_equal. lia.
  - rewrite !(zdrop_0 (0 * LABEL_SIZE)) by lia. rewrite ztake_app by lia. rewrite zlen_take by lia.
    rewrite ztake_ztake by lia. rewrite (ztake_0 (LABEL_SIZE - _)) by lia. rewrite app_nil_r. f_equal; lia.
Qed.

Lemma splice_len off img dev : 0 <= off -> off + zlen img <= zlen dev -> zlen (splice off img dev) = zlen dev.
Proof using. clear H HR.
  intros O L. pose proof (zlen_nonneg img). unfold splice. rewrite !zlen_app, zlen_take, zlen_drop by lia. lia.
Qed.

Lemma write_ok i l dev : 0 <= i <= 1 -> label_ok l -> label_small l -> 2 * LABEL_SIZE <= zlen dev ->
  exists dev', write_label H i (label_parts l) dev = Some dev' /\ reads H (area i dev') l /\
    (forall j, 0 <= j <= 1 -> j <> i -> area j dev' = area j dev) /\ zlen dev' = zlen dev /\
    zdrop (2 * LABEL_SIZE) dev' = zdrop (2 * LABEL_SIZE) dev.
Proof.
  intros Hi V SM D. destruct (image_ok l V SM) as (img & E & L & _ & R). unfold write_label. rewrite E. cbn [obind].
  assert (LS : LABEL_SIZE = 16384) by reflexivity.
  eexists. split; [reflexivity|]. destruct (area_splice_same i img dev Hi (proj2 L) D) as (tail & -> & LT).
  split; [now apply R|]. split; [intros j Hj N; apply area_splice_other; lia|]. split; [apply splice_len; lia|].
  unfold splice. rewrite app_assoc, zdrop_app by lia. rewrite zlen_app, zlen_take by lia.
  rewrite zdrop_all by (rewrite zlen_app, zlen_take by lia; lia). cbn [app]. rewrite zdrop_zdrop by lia. f_equal. lia.
Qed.

(** A label is read back as it was written, from either place, whatever was there
    before, and writing it changes neither the other label nor anything behind
    the labels.

    Missing from the full claim: labels that fit in their 16 kB but have a part
    of 4 kB or more ([C46_large_part_refuted]). *)
Theorem C46_read_back_partial i l dev : 0 <= i <= 1 -> label_ok l -> label_small l -> 2 * LABEL_SIZE <= zlen dev ->
  exists dev' s, write_label H i (label_parts l) dev = Some dev' /\
    label_new H (area i dev') = LOk s /\ label_parse s = Some l /\
    area (1 - i) dev' = area (1 - i) dev /\ zlen dev' = zlen dev /\ zdrop (2 * LABEL_SIZE) dev' = zdrop (2 * LABEL_SIZE) dev.
Proof.
  intros Hi V SM D. destruct (write_ok i l dev Hi V SM D) as (dev' & E & (s & E1 & E2) & O & L & T).
  exists dev', s. repeat (split; [assumption|]). split; [apply O; lia|]. auto.
Qed.

Lemma le_bound l : Forall (uint 8) l -> 0 <= le_val l < 256 ^ zlen l.
Proof using. clear H HR.
  induction 1 as [|x l Hx F IH]; [cbn; lia|]. change (le_val (x :: l)) with (x + 256 * le_val l). rewrite zlen_cons.
  pose proof (zlen_nonneg l). rewrite Z.pow_add_r by lia. unfold uint in Hx. lia.
Qed.

(** Whatever bytes are found: what is accepted is the magic, a checksum, a length
    and contents of that length, and the checksum is that of length and contents. *)
Theorem C46_corruption_detected b s : Forall (uint 8) b -> label_new H b = LOk s ->
  exists sum len contents pad, b = MAGIC ++ sum ++ len ++ contents ++ pad /\ s = contents ++ pad /\ zlen sum = 8 /\ zlen len = 8 /\
    be_val len = zlen contents /\ be_val sum = H (be_bytes 8 (zlen contents) ++ contents).
Proof.
  intros F E. unfold label_new in E. destruct (Z.ltb_spec (zlen b) 32) as [|L]; [discriminate|].
  destruct (list_eq_dec Z.eq_dec (ztake 16 b) MAGIC) as [M|]; [|discriminate]. cbn [negb] in E.
  set (sum := ztake 8 (zdrop 16 b)) in *. set (len := ztake 8 (zdrop 24 b)) in *. set (rest := zdrop 32 b) in *.
  assert (EB : b = MAGIC ++ sum ++ len ++ rest).
  { rewrite <- M. rewrite <- (ztake_drop 16 b) at 1. f_equal. rewrite <- (ztake_drop 8 (zdrop 16 b)) at 1. fold sum. f_equal.
    rewrite zdrop_zdrop by lia. rewrite <- (ztake_drop 8 (zdrop (8 + 16) b)) at 1. unfold len. f_equal.
    rewrite zdrop_zdrop by lia. reflexivity. }
  assert (L1 : zlen sum = 8) by (unfold sum; rewrite zlen_take; [reflexivity|rewrite zlen_drop by lia; lia]).
  assert (L2 : zlen len = 8) by (unfold len; rewrite zlen_take; [reflexivity|rewrite zlen_drop by lia; lia]).
  assert (LR : zlen b = 32 + zlen rest) by (rewrite EB at 1; rewrite !zlen_app, L1, L2; change (zlen MAGIC) with 16; lia).
  assert (FL : Forall (uint 8) len).
  { rewrite EB in F. apply Forall_app in F. destruct F as [_ F]. apply Forall_app in F. destruct F as [_ F]. apply Forall_app in F. apply F. }
  assert (BL : 0 <= be_val len < 2 ^ 64).
  { unfold be_val. replace (2 ^ 64) with (256 ^ zlen (rev len)) by (unfold zlen; rewrite rev_length; fold (zlen len); rewrite L2; reflexivity).
    apply le_bound. now apply Forall_rev. }
  set (stop := (32 + be_val len) mod 2 ^ 64) in *.
  destruct ((stop <? 32) || (zlen b <? stop)) eqn:C; [discriminate|]. apply orb_false_iff in C. destruct C as [C1 C2].
  assert (ST : stop = 32 + be_val len).
  { unfold stop in *. destruct (Z_lt_dec (32 + be_val len) (2 ^ 64)) as [X|X]; [apply Z.mod_small; lia|]. exfalso.
    replace ((32 + be_val len) mod 2 ^ 64) with (32 + be_val len - 2 ^ 64) in C1; [lia|].
    apply Z.mod_unique with (q := 1); lia. }
  rewrite ST in *. replace (32 + be_val len - 32) with (be_val len) in E by lia.
  set (c := ztake (be_val len) rest) in *.
  assert (LC : zlen c = be_val len) by (unfold c; apply zlen_take; lia).
  destruct (Z.eqb_spec (be_val sum) (H (be_bytes 8 (be_val len) ++ c))) as [ES|]; [|discriminate]. injection E as <-.
  exists sum, len, c, (zdrop (be_val len) rest). unfold c at 1 2. rewrite ztake_drop. rewrite LC. auto 10.
Qed.

(** The other copy is used if the first cannot be read or is not accepted. *)
Theorem C46_other_copy rd b l : rd 1 = LOk b -> reads H b l ->
  (exists e, rd 0 = LErr e) \/ (exists b0, rd 0 = LOk b0 /\ rejected H b0) ->
  exists s, read_label H rd = LOk s /\ label_parse s = Some l.
Proof.
  intros E (s & E1 & E2) C. exists s. split; [|exact E2]. unfold read_label. rewrite E.
  destruct C as [(e & ->)|(b0 & -> & e & ->)]; exact E1.
Qed.

(** ** Crashes *)

(** Histories of one disk: formatting, syncs, and syncs that are cut short by a
    crash while the first or the second label is written (database.rs 721-769
    writes label 0, then label 1).  [last] is the label that a mount should find;
    [both] says that the last sync wrote both labels.  A crash while label 0 is
    written leaves bytes that are detected; one during label 1 may leave anything.
    If [strict], no sync crashes in label 0 right after one that crashed in label 1. *)
Inductive lhist (strict : bool) : list Z -> label -> bool -> Prop :=
| lh_format dev l d0 d1 : 2 * LABEL_SIZE <= zlen dev -> label_ok l -> label_small l ->
    write_label H 0 (label_parts l) dev = Some d0 -> write_label H 1 (label_parts l) d0 = Some d1 -> lhist strict d1 l true
| lh_sync dev last both l d0 d1 : lhist strict dev last both -> label_ok l -> label_small l ->
    write_label H 0 (label_parts l) dev = Some d0 -> write_label H 1 (label_parts l) d0 = Some d1 -> lhist strict d1 l true
| lh_crash0 dev last both l img x : lhist strict dev last both -> (strict = true -> both = true) -> label_ok l -> label_small l ->
    label_image H (label_parts l) = Some img -> zlen x = zlen img ->
    rejected H (area 0 (splice 0 x dev)) -> lhist strict (splice 0 x dev) last both
| lh_crash1 dev last both l d0 img x : lhist strict dev last both -> label_ok l -> label_small l ->
    write_label H 0 (label_parts l) dev = Some d0 -> label_image H (label_parts l) = Some img -> zlen x = zlen img ->
    lhist strict (splice LABEL_SIZE x d0) l false.

Definition LInv (dev : list Z) (last : label) (both : bool) : Prop :=
  2 * LABEL_SIZE <= zlen dev /\ (both = true -> reads H (area 1 dev) last) /\
  (reads H (area 0 dev) last \/ rejected H (area 0 dev) /\ both = true).

Lemma write_both dev l d0 d1 : 2 * LABEL_SIZE <= zlen dev -> label_ok l -> label_small l ->
  write_label H 0 (label_parts l) dev = Some d0 -> write_label H 1 (label_parts l) d0 = Some d1 -> LInv d1 l true.
Proof.
  intros D V SM E0 E1. destruct (write_ok 0 l dev ltac:(lia) V SM D) as (d0' & X & R0 & _ & L0 & _). rewrite E0 in X. injection X as <-.
  destruct (write_ok 1 l d0 ltac:(lia) V SM ltac:(lia)) as (d1' & X & R1 & O & L1 & _). rewrite E1 in X. injection X as <-.
  split; [lia|]. split; [auto|]. left. rewrite O by lia. exact R0.
Qed.

Lemma lhist_inv dev last both : lhist true dev last both -> LInv dev last both.
Proof.
  induction 1 as [dev l d0 d1 D V SM E0 E1|dev last both l d0 d1 _ IH V SM E0 E1|dev last both l img x _ IH B V SM E LX RJ|dev last both l d0 img x _ IH V SM E0 E LX].
  - eapply write_both; eauto.
  - eapply write_both; eauto. apply IH.
  - destruct IH as (D & R1 & _). destruct (image_ok l V SM) as (img' & E' & L & _). rewrite E in E'. injection E' as <-.
    assert (LS : LABEL_SIZE = 16384) by reflexivity.
    split; [rewrite splice_len; lia|]. specialize (B eq_refl). subst both. split.
    + intros _. change 0 with (0 * LABEL_SIZE). rewrite area_splice_other by lia. now apply R1.
    + right. auto.
  - destruct IH as (D & _). destruct (write_ok 0 l dev ltac:(lia) V SM D) as (d0' & X & R0 & _ & L0 & _). rewrite E0 in X. injection X as <-.
    destruct (image_ok l V SM) as (img' & E' & L & _). rewrite E in E'. injection E' as <-.
    assert (LS : LABEL_SIZE = 16384) by reflexivity.
    split; [rewrite splice_len; lia|]. split; [discriminate|]. left. replace LABEL_SIZE with (1 * LABEL_SIZE) at 1 by lia.
    rewrite area_splice_other by lia. exact R0.
Qed.

(** Through any number of syncs and crashes, a mount finds the label of the last
    sync that got as far as having written label 0.

    Missing from the full claim: a crash in the first label of the sync that
    follows a crash in the second label ([C68_two_crashes_refuted]). *)
Theorem C68_crash_safe_partial dev last both : lhist true dev last both -> mount H dev = Some last.
Proof.
  intros R. apply lhist_inv in R. destruct R as (_ & R1 & R0). unfold mount, read_label, from_disk.
  destruct R0 as [(s & E & P)|((e & E) & B)]; rewrite E; [exact P|]. destruct (R1 B) as (s & E' & P). rewrite E'. exact P.
Qed.

End C46.

(** A hash to compute with. *)
Definition toyh (l : list Z) : Z := fold_left (fun a b => (a * 31 + b + 1) mod 2 ^ 64) l 0.

Lemma toyh_range l : uint 64 (toyh l).
Proof.
  unfold toyh. assert (G : forall a, uint 64 a -> uint 64 (fold_left (fun a b => (a * 31 + b + 1) mod 2 ^ 64) l a)).
  { induction l as [|x l IH]; intros a Ha; [exact Ha|]. cbn [fold_left]. apply IH. apply Z.mod_pos_bound. lia. }
  apply G. unfold uint. lia.
Qed.

Definition u16b (x : Z) : list Z := zrepeat x 16.
Definition ex_drp := mkd 0 100 0 4096 4096 77.
Definition ex_tree {A} (r : A) := mktree 2 (zrepeat 0 7) (4, (16, (4, (16, 4096)))) r (0, 9).
Definition ex_label (name : list Z) (txg : Z) : label :=
  mklabel (mkblock (u16b 1) 65536 262144 2 txg) (mkmirror (u16b 2) [u16b 1; u16b 3]) (LRaid (u16b 4) 16 5 1 [u16b 2; u16b 5])
          (mkpool name (u16b 6) [u16b 4]) (mki (ex_tree ex_drp) 1234 (ex_tree ex_drp) txg) (ex_tree 55).

Ltac ranges := unfold uint, uuid, zlen; cbn; lia.

Lemma ex_ok name txg : zlen name < 2 ^ 32 -> Forall (uint 8) name -> uint 32 txg -> label_ok (ex_label name txg).
Proof.
  intros N F T. unfold label_ok, block_ok, mirror_ok, raid_ok, pool_ok, idml_ok, tree_ok, drp_ok, uuids. cbn [ex_label ex_tree ex_drp l_block l_mirror l_raid l_pool l_idml l_db b_uuid b_lpz b_lbas b_sms b_txg m_uuid m_children p_name p_uuid p_children i_alloct i_next i_ridt i_txg t_height t_reserved t_limits t_root t_txgs q_cluster q_lba q_compressed q_lsize q_csize q_checksum fst snd].
  repeat split; try assumption; try (apply T); try ranges; repeat (constructor; [reflexivity|]); constructor.
Qed.

Lemma ex_small name txg : zlen name <= 4055 -> label_small (ex_label name txg).
Proof. intros N. unfold label_small. cbn [ex_label l_mirror l_raid l_pool m_children p_name p_children]. split; [ranges|]. split; [ranges|]. change (zlen [u16b 4]) with 1. lia. Qed.

(** Writing a label with a pool's name of four thousand and some bytes panics,
    though it would fit. *)
Theorem C46_large_part_refuted : exists H l dev,
  (forall x, uint 64 (H x)) /\ label_ok l /\ 2 * LABEL_SIZE <= zlen dev /\ 32 + zlen (concat (label_parts l)) <= LABEL_SIZE /\
  write_label H 0 (label_parts l) dev = None.
Proof.
  exists toyh, (ex_label (zrepeat 97 4100) 9), (zrepeat 0 32768). split; [apply toyh_range|]. split.
  { apply ex_ok; [vm_compute; reflexivity| |ranges]. apply Forall_forall. intros x Hx. apply repeat_spec in Hx. subst x. ranges. }
  split; [vm_compute; discriminate|]. split; [vm_compute; discriminate|]. vm_compute. reflexivity.
Qed.

Definition torn : list Z := zrepeat 5 4096.
Lemma torn_bad tail : label_new toyh (torn ++ tail) = LErr EINVAL.
Proof.
  assert (LX : zlen torn = 4096) by reflexivity.
  unfold label_new. pose proof (zlen_nonneg tail). rewrite zlen_app, LX. destruct (Z.ltb_spec (4096 + zlen tail) 32); [lia|].
  replace (ztake 16 (torn ++ tail)) with (zrepeat 5 16).
  - destruct (list_eq_dec Z.eq_dec (zrepeat 5 16) MAGIC) as [Y|_]; [vm_compute in Y; discriminate|reflexivity].
  - rewrite ztake_app by lia. rewrite LX, (ztake_0 (16 - 4096)) by lia. rewrite app_nil_r. vm_compute. reflexivity.
Qed.

Lemma setting : exists blank x : list Z, zlen blank = 32768 /\ zlen x = 4096 /\ forall tail, label_new toyh (x ++ tail) = LErr EINVAL.
Proof. exists (zrepeat 0 32768), torn. split; [reflexivity|]. split; [reflexivity|apply torn_bad]. Qed.

(** Two crashes.  The pool is formatted; a sync is cut off while it writes label 1
    and the pool is mounted again, with label 0; the next sync is cut off while it
    writes label 0: no label is left. *)
Theorem C68_two_crashes_refuted : exists H dev last both,
  (forall x, uint 64 (H x)) /\ lhist H false dev last both /\ mount H dev = None.
Proof.
  set (l t := ex_label [112] t).
  assert (V : forall t, uint 32 t -> label_ok (l t)).
  { intros t T. apply ex_ok; [vm_compute; reflexivity| |exact T]. constructor; [ranges|constructor]. }
  assert (SM : forall t, label_small (l t)) by (intros t; apply ex_small; vm_compute; discriminate).
  destruct setting as (blank & x & LD & LX & BAD).
  assert (LS : LABEL_SIZE = 16384) by reflexivity.
  destruct (write_ok toyh toyh_range 0 (l 1) blank ltac:(lia) (V 1 ltac:(ranges)) (SM 1) ltac:(lia)) as (d0 & E0 & _ & _ & L0 & _).
  destruct (write_ok toyh toyh_range 1 (l 1) d0 ltac:(lia) (V 1 ltac:(ranges)) (SM 1) ltac:(lia)) as (d1 & E1 & _ & _ & L1 & _).
  destruct (write_ok toyh toyh_range 0 (l 2) d1 ltac:(lia) (V 2 ltac:(ranges)) (SM 2) ltac:(lia)) as (d2 & E2 & _ & _ & L2 & _).
  assert (IM : forall t, t = 2 \/ t = 3 -> exists img, label_image toyh (label_parts (l t)) = Some img /\ zlen img = 4096).
  { intros t [-> | ->]; (eexists; split; [vm_compute; reflexivity|vm_compute; reflexivity]). }
  destruct (IM 2 ltac:(auto)) as (img2 & I2 & X2). destruct (IM 3 ltac:(auto)) as (img3 & I3 & X3).
  set (d3 := splice LABEL_SIZE x d2). set (d4 := splice 0 x d3).
  assert (L3 : zlen d3 = 32768) by (unfold d3; rewrite splice_len; lia).
  assert (R0 : label_new toyh (area 0 d4) = LErr EINVAL).
  { destruct (area_splice_same 0 x d3 ltac:(lia) ltac:(lia) ltac:(lia)) as (tail & E & _). unfold d4. change 0 with (0 * LABEL_SIZE) at 2. rewrite E. apply BAD. }
  exists toyh, d4, (l 2), false. split; [apply toyh_range|]. split.
  - assert (V1 : label_ok (l 1)) by (apply V; ranges). assert (V2 : label_ok (l 2)) by (apply V; ranges).
    assert (V3 : label_ok (l 3)) by (apply V; ranges). assert (D0 : 2 * LABEL_SIZE <= zlen blank) by lia.
    assert (RJ : rejected toyh (area 0 (splice 0 x d3))) by (eexists; exact R0).
    assert (NS : false = true -> false = true) by auto.
    exact (lh_crash0 toyh false d3 (l 2) false (l 3) img3 x
      (lh_crash1 toyh false d1 (l 1) true (l 2) d2 img2 x (lh_format toyh false _ (l 1) d0 d1 D0 V1 (SM 1) E0 E1) V2 (SM 2) E2 I2 (eq_trans LX (eq_sym X2)))
      NS V3 (SM 3) I3 (eq_trans LX (eq_sym X3)) RJ).
  - unfold mount, read_label, from_disk. rewrite R0.
    unfold d4. change 0 with (0 * LABEL_SIZE). rewrite area_splice_other by lia.
    unfold d3. replace LABEL_SIZE with (1 * LABEL_SIZE) at 1 by lia.
    destruct (area_splice_same 1 x d2 ltac:(lia) ltac:(lia) ltac:(lia)) as (tail & E & _). rewrite E, BAD. reflexivity.
Qed.

(** Or, if the first crash came before anything of label 1 had been written, an
    older label is found than the one the pool was mounted with in between. *)
Theorem C68_rollback_refuted : exists H dev last both old,
  (forall x, uint 64 (H x)) /\ lhist H false dev last both /\ mount H dev = Some old /\ i_txg (l_idml old) < i_txg (l_idml last).
Proof.
  set (l t := ex_label [112] t).
  assert (V : forall t, uint 32 t -> label_ok (l t)).
  { intros t T. apply ex_ok; [vm_compute; reflexivity| |exact T]. constructor; [ranges|constructor]. }
  assert (SM : forall t, label_small (l t)) by (intros t; apply ex_small; vm_compute; discriminate).
  destruct setting as (blank & x & LD & LX & BAD).
  assert (LS : LABEL_SIZE = 16384) by reflexivity.
  destruct (write_ok toyh toyh_range 0 (l 1) blank ltac:(lia) (V 1 ltac:(ranges)) (SM 1) ltac:(lia)) as (d0 & E0 & _ & _ & L0 & _).
  destruct (write_ok toyh toyh_range 1 (l 1) d0 ltac:(lia) (V 1 ltac:(ranges)) (SM 1) ltac:(lia)) as (d1 & E1 & _ & _ & L1 & _).
  destruct (write_ok toyh toyh_range 0 (l 2) d1 ltac:(lia) (V 2 ltac:(ranges)) (SM 2) ltac:(lia)) as (d2 & E2 & _ & _ & L2 & _).
  assert (IM : forall t, t = 1 \/ t = 2 \/ t = 3 -> exists img, label_image toyh (label_parts (l t)) = Some img /\ zlen img = 4096).
  { intros t [-> | [-> | ->]]; (eexists; split; [vm_compute; reflexivity|vm_compute; reflexivity]). }
  destruct (IM 2 ltac:(auto)) as (img2 & I2 & X2). destruct (IM 3 ltac:(auto)) as (img3 & I3 & X3).
  assert (IO : exists img1, zlen img1 = 4096 /\ forall tail, zlen img1 + zlen tail = LABEL_SIZE -> reads toyh (img1 ++ tail) (l 1)).
  { destruct (image_ok toyh toyh_range (l 1) (V 1 ltac:(ranges)) (SM 1)) as (img1 & I1 & _ & _ & R1). exists img1. split; [|exact R1].
    destruct (IM 1 ltac:(auto)) as (i & Y & LY). rewrite I1 in Y. injection Y as ->. exact LY. }
  destruct IO as (img1 & X1 & R1).
  set (d3 := splice LABEL_SIZE img1 d2). set (d4 := splice 0 x d3).
  assert (L3 : zlen d3 = 32768) by (unfold d3; rewrite splice_len; clear - L0 L1 L2 X1 LS LD; lia).
  assert (R0 : label_new toyh (area 0 d4) = LErr EINVAL).
  { destruct (area_splice_same 0 x d3 ltac:(lia) ltac:(lia) ltac:(lia)) as (tail & E & _). unfold d4. change 0 with (0 * LABEL_SIZE) at 2. rewrite E. apply BAD. }
  exists toyh, d4, (l 2), false, (l 1). split; [apply toyh_range|]. split; [|split; [|vm_compute; reflexivity]].
  - assert (V1 : label_ok (l 1)) by (apply V; ranges). assert (V2 : label_ok (l 2)) by (apply V; ranges).
    assert (V3 : label_ok (l 3)) by (apply V; ranges). assert (D0 : 2 * LABEL_SIZE <= zlen blank) by lia.
    assert (RJ : rejected toyh (area 0 (splice 0 x d3))) by (eexists; exact R0).
    assert (NS : false = true -> false = true) by auto.
    exact (lh_crash0 toyh false d3 (l 2) false (l 3) img3 x
      (lh_crash1 toyh false d1 (l 1) true (l 2) d2 img2 img1 (lh_format toyh false _ (l 1) d0 d1 D0 V1 (SM 1) E0 E1) V2 (SM 2) E2 I2 (eq_trans X1 (eq_sym X2)))
      NS V3 (SM 3) I3 (eq_trans LX (eq_sym X3)) RJ).
  - unfold mount, read_label, from_disk. rewrite R0.
    unfold d4. change 0 with (0 * LABEL_SIZE). rewrite area_splice_other by lia.
    unfold d3. replace LABEL_SIZE with (1 * LABEL_SIZE) at 1 by lia.
    destruct (area_splice_same 1 img1 d2 ltac:(lia) ltac:(lia) ltac:(lia)) as (tail & E & LT). rewrite E.
    destruct (R1 tail LT) as (s & -> & P). exact P.
Qed.

(** The hypotheses are met: a label of a RAID pool, written and read. *)
Example C46_example :
  match write_label toyh 1 (label_parts (ex_label [98; 102] 7)) (zrepeat 3 40000) with
  | Some dev => mount toyh dev = Some (ex_label [98; 102] 7)
  | None => False
  end.
Proof. vm_compute. reflexivity. Qed.

(** A sync is cut off while it writes label 0: the label of the sync before it is found. *)
Example C68_example : exists dev, lhist toyh true dev (ex_label [112] 1) true /\ rejected toyh (area 0 dev) /\ mount toyh dev = Some (ex_label [112] 1).
Proof.
  set (l t := ex_label [112] t).
  assert (V : forall t, uint 32 t -> label_ok (l t)).
  { intros t T. apply ex_ok; [vm_compute; reflexivity| |exact T]. constructor; [ranges|constructor]. }
  assert (SM : forall t, label_small (l t)) by (intros t; apply ex_small; vm_compute; discriminate).
  destruct setting as (blank & x & LD & LX & BAD). assert (LS : LABEL_SIZE = 16384) by reflexivity.
  destruct (write_ok toyh toyh_range 0 (l 1) blank ltac:(lia) (V 1 ltac:(ranges)) (SM 1) ltac:(lia)) as (d0 & E0 & _ & _ & L0 & _).
  destruct (write_ok toyh toyh_range 1 (l 1) d0 ltac:(lia) (V 1 ltac:(ranges)) (SM 1) ltac:(lia)) as (d1 & E1 & _ & _ & L1 & _).
  assert (IM : exists img, label_image toyh (label_parts (l 2)) = Some img /\ zlen img = 4096) by (eexists; split; [vm_compute; reflexivity|vm_compute; reflexivity]).
  destruct IM as (img & I2 & X2).
  assert (RJ : rejected toyh (area 0 (splice 0 x d1))).
  { destruct (area_splice_same 0 x d1 ltac:(lia) ltac:(lia) ltac:(lia)) as (tail & E & _). change 0 with (0 * LABEL_SIZE) at 2. rewrite E. eexists. apply BAD. }
  assert (V1 : label_ok (l 1)) by (apply V; ranges). assert (V2 : label_ok (l 2)) by (apply V; ranges). assert (D0 : 2 * LABEL_SIZE <= zlen blank) by lia.
  assert (LH : lhist toyh true (splice 0 x d1) (l 1) true).
  { exact (lh_crash0 toyh true d1 (l 1) true (l 2) img x (lh_format toyh true blank (l 1) d0 d1 D0 V1 (SM 1) E0 E1) (fun _ => eq_refl) V2 (SM 2) I2 (eq_trans LX (eq_sym X2)) RJ). }
  exists (splice 0 x d1). split; [exact LH|]. split; [exact RJ|]. exact (C68_crash_safe_partial toyh toyh_range _ _ _ LH).
Qed.

Print Assumptions C46_read_back_partial.
Print Assumptions C46_corruption_detected.
Print Assumptions C46_other_copy.
Print Assumptions C46_large_part_refuted.
Print Assumptions C68_crash_safe_partial.
Print Assumptions C68_two_crashes_refuted.
Print Assumptions C68_rollback_refuted.
