(** C32: file system keys. *)
From Verif Require Import Common FSKey_Model.

(** An object key whose offset fits the 56 bits reserved for it.  Hashes are masked to
    56 bits when made (fs_tree.rs:136,145,155); property names are small constants; only
    extents take the offset from the user. *)
Definition fits (k : objkey) : Prop :=
  match k with
  | DirEntry x | Extent x | ExtAttr x | Property x | DyingInode x => 0 <= x < 2 ^ 56
  | Inode => True
  end.
Definition u64 (x : Z) : Prop := 0 <= x < 2 ^ 64.

(** The intended order: object, then kind, then offset. *)
Definition kind (k : objkey) : Z :=
  match k with
  | DirEntry _ => 0 | Inode => 1 | Extent _ => 2 | ExtAttr _ => 3 | Property _ => 4 | DyingInode _ => 5
  end.
Definition where_ (k : objkey) : Z :=
  match k with
  | DirEntry x | Extent x | ExtAttr x | Property x | DyingInode x => x
  | Inode => 0
  end.
Definition lex_lt (a b : Z * objkey) : Prop :=
  fst a < fst b \/
  (fst a = fst b /\ (kind (snd a) < kind (snd b) \/
                     (kind (snd a) = kind (snd b) /\ where_ (snd a) < where_ (snd b)))).

Definition in_range (k : Z) (r : Z * Z) : Prop := fst r <= k < snd r.

Lemma compose_arith o t f : 0 <= t < 2 ^ 8 -> 0 <= f < 2 ^ 56 ->
  compose o t f = o * 2 ^ 64 + t * 2 ^ 56 + f.
Proof.
  intros Ht Hf. unfold compose.
  assert (E1 : Z.lor (Z.shiftl o 64) (Z.shiftl t 56) = Z.shiftl (o * 2 ^ 8 + t) 56).
  { rewrite <- (lor_add o t 8) by lia. rewrite Z.shiftl_lor.
    rewrite Z.shiftl_shiftl by lia. reflexivity. }
  rewrite E1, lor_add by lia. lia.
Qed.

Lemma kind_disc k : discriminant k = kind k. Proof. destruct k; reflexivity. Qed.
Lemma where_off k : objkey_offset k = where_ k. Proof. destruct k; reflexivity. Qed.
Lemma kind_bound k : 0 <= kind k < 6. Proof. destruct k; cbn; lia. Qed.
Lemma fits_where k : fits k -> 0 <= where_ k < 2 ^ 56. Proof. destruct k; cbn; lia. Qed.

Lemma new_arith o k : fits k -> fskey_new o k = o * 2 ^ 64 + kind k * 2 ^ 56 + where_ k.
Proof.
  intros H. unfold fskey_new. rewrite kind_disc, where_off.
  apply compose_arith; [pose proof (kind_bound k); lia|now apply fits_where].
Qed.

Lemma objkey_ext k k' : kind k = kind k' -> where_ k = where_ k' -> k = k'.
Proof. destruct k, k'; cbn; intros; congruence. Qed.

(** Distinct (object, kind, offset) have distinct keys, and keys sort in that order. *)
Theorem C32_keys_ordered_partial : forall o k o' k', u64 o -> u64 o' -> fits k -> fits k' ->
  (fskey_new o k = fskey_new o' k' <-> o = o' /\ k = k') /\
  (fskey_new o k < fskey_new o' k' <-> lex_lt (o, k) (o', k')).
Proof.
  intros o k o' k' Ho Ho' Hk Hk'. rewrite !new_arith by assumption. unfold u64, lex_lt in *. cbn [fst snd].
  pose proof (kind_bound k). pose proof (kind_bound k'). pose proof (fits_where k Hk). pose proof (fits_where k' Hk').
  split.
  - split; [|intros [-> ->]; reflexivity]. intros E.
    assert (o = o') by lia. assert (kind k = kind k') by lia.
    assert (where_ k = where_ k') by lia. split; [assumption|]. now apply objkey_ext.
  - lia.
Qed.

(** The components of a key can be read back from it. *)
Theorem C32_components_partial : forall o k, u64 o -> fits k ->
  key_object (fskey_new o k) = o /\ key_objtype (fskey_new o k) = kind k /\
  key_offset (fskey_new o k) = where_ k /\
  0 <= fskey_new o k < 2 ^ 128 /\
  (is_direntry (fskey_new o k) = true <-> exists h, k = DirEntry h) /\
  (is_inode (fskey_new o k) = true <-> k = Inode) /\
  (is_extattr (fskey_new o k) = true <-> exists h, k = ExtAttr h) /\
  (is_dying_inode (fskey_new o k) = true <-> exists h, k = DyingInode h).
Proof.
  intros o k Ho Hk. unfold u64 in Ho.
  pose proof (kind_bound k) as Hkb. pose proof (fits_where k Hk) as Hw.
  assert (E2 : key_objtype (fskey_new o k) = kind k).
  { unfold key_objtype. rewrite new_arith by assumption.
    rewrite Z.land_ones, Z.shiftr_div_pow2 by lia.
    replace (o * 2 ^ 64 + kind k * 2 ^ 56 + where_ k) with (where_ k + (kind k + o * 2 ^ 8) * 2 ^ 56) by lia.
    rewrite Z.div_add, Z.div_small by lia. rewrite Z.add_0_l, Z.mod_add, Z.mod_small by lia. reflexivity. }
  split; [|split; [exact E2|split; [|split]]].
  - unfold key_object. rewrite new_arith by assumption.
    rewrite Z.land_ones, Z.shiftr_div_pow2 by lia.
    replace (o * 2 ^ 64 + kind k * 2 ^ 56 + where_ k) with ((kind k * 2 ^ 56 + where_ k) + o * 2 ^ 64) by lia.
    rewrite Z.div_add, Z.div_small by lia. rewrite Z.add_0_l. apply Z.mod_small. lia.
  - unfold key_offset. rewrite new_arith by assumption. rewrite Z.land_ones by lia.
    replace (o * 2 ^ 64 + kind k * 2 ^ 56 + where_ k) with (where_ k + (kind k + o * 2 ^ 8) * 2 ^ 56) by lia.
    rewrite Z.mod_add, Z.mod_small by lia. reflexivity.
  - rewrite new_arith by assumption. lia.
  - unfold is_direntry, is_inode, is_extattr, is_dying_inode. rewrite E2.
    destruct k; cbn; repeat split; intros H; try discriminate; try (destruct H; discriminate); eauto.
Qed.

(** The ranges used by the file system contain exactly the intended keys. *)
Theorem C32_ranges_partial : forall ino o k, u64 ino -> u64 o -> fits k ->
  (forall off, 0 <= off < 2 ^ 56 ->
     in_range (fskey_new o k) (dirent_range ino off) <-> o = ino /\ exists h, k = DirEntry h /\ off <= h) /\
  (in_range (fskey_new o k) (extattr_range ino) <-> o = ino /\ exists h, k = ExtAttr h) /\
  (in_range (fskey_new o k) dying_inode_range <-> o = 0 /\ exists h, k = DyingInode h) /\
  (forall lo hi, (forall x, lo = Some x -> 0 <= x < 2 ^ 56) -> (forall x, hi = Some x -> 0 <= x < 2 ^ 56) ->
     in_range (fskey_new o k) (extent_range ino lo hi) <->
     o = ino /\ exists x, k = Extent x /\ (forall l, lo = Some l -> l <= x) /\ (forall h, hi = Some h -> x < h)) /\
  (ino < 2 ^ 64 - 1 -> in_range (fskey_new o k) (obj_range ino) <-> o = ino).
Proof.
  intros ino o k Hi Ho Hk. unfold u64 in *.
  pose proof (kind_bound k) as Hkb. pose proof (fits_where k Hk) as Hw.
  unfold in_range. rewrite new_arith by assumption.
  split; [|split; [|split; [|split]]].
  - intros off Hoff. unfold dirent_range. cbn [fst snd discriminant]. rewrite !compose_arith by lia.
    split.
    + intros H. assert (o = ino) by lia. split; [assumption|]. subst o.
      destruct k; cbn [kind where_] in *; try lia. exists hash. split; [reflexivity|lia].
    + intros (-> & h & -> & Hh). cbn [kind where_] in *. lia.
  - unfold extattr_range. cbn [fst snd discriminant]. rewrite !compose_arith by lia. split.
    + intros H. assert (o = ino) by lia. split; [assumption|]. subst o.
      destruct k; cbn [kind where_] in *; try lia. eauto.
    + intros (-> & h & ->). cbn [kind where_] in *. lia.
  - unfold dying_inode_range. cbn [fst snd discriminant]. rewrite !compose_arith by lia. split.
    + intros H. assert (o = 0) by lia. split; [assumption|]. subst o.
      destruct k; cbn [kind where_] in *; try lia. eauto.
    + intros (-> & h & ->). cbn [kind where_] in *. lia.
  - intros lo hi Hlo Hhi. unfold extent_range. cbn [discriminant fst snd].
    assert (E1 : match lo with Some s => compose ino 2 s | None => compose ino 2 0 end =
                 ino * 2 ^ 64 + 2 * 2 ^ 56 + match lo with Some s => s | None => 0 end).
    { destruct lo as [l|]; [specialize (Hlo l eq_refl)|]; rewrite compose_arith by lia; reflexivity. }
    assert (E2 : match hi with Some e => compose ino 2 e | None => compose ino (2 + 1) 0 end =
                 ino * 2 ^ 64 + 2 * 2 ^ 56 + match hi with Some e => e | None => 2 ^ 56 end).
    { destruct hi as [h|]; [specialize (Hhi h eq_refl)|]; rewrite compose_arith by lia; lia. }
    rewrite E1, E2. clear E1 E2.
    assert (Hlo' : 0 <= match lo with Some s => s | None => 0 end < 2 ^ 56) by (destruct lo; [auto|lia]).
    assert (Hhi' : 0 <= match hi with Some e => e | None => 2 ^ 56 end <= 2 ^ 56).
    { destruct hi as [h|]; [specialize (Hhi h eq_refl)|]; lia. }
    split.
    + intros H. assert (o = ino) by lia. split; [assumption|]. subst o.
      destruct k; cbn [kind where_] in *; try lia. exists offset. split; [reflexivity|].
      split; [intros l ->|intros h ->]; lia.
    + intros (-> & x & -> & H1 & H2). cbn [kind where_] in *.
      destruct lo as [l|]; [specialize (H1 l eq_refl)|]; (destruct hi as [h|]; [specialize (H2 h eq_refl)|]); lia.
  - intros Hi'. unfold obj_range. cbn [fst snd]. rewrite (Z.mod_small (ino + 1)) by lia.
    rewrite !compose_arith by lia. lia.
Qed.

(** The unrestricted claim is false: writing at offset 2^56 of a file uses the key of an
    extended attribute of the same file. *)
Theorem C32_keys_collide_refuted : exists o k k', u64 o /\ k <> k' /\
  (forall x, k = Extent x -> u64 x) /\ fskey_new o k = fskey_new o k'.
Proof.
  exists 5, (Extent (2 ^ 56)), (ExtAttr 0). split; [unfold u64; lia|].
  split; [discriminate|]. split; [intros x E; injection E as <-; unfold u64; lia|]. reflexivity.
Qed.

(** ... truncating from offset 2^57 selects an empty range, so nothing is deleted, and
    from an offset like 3 * 2^56 the range even starts among other kinds of records. *)
Theorem C32_extent_range_refuted : exists ino lo x, u64 ino /\ u64 lo /\ u64 x /\ lo <= x /\
  ~ in_range (fskey_new ino (Extent x)) (extent_range ino (Some lo) None).
Proof.
  exists 5, (3 * 2 ^ 56), (5 * 2 ^ 56). split; [unfold u64; lia|]. split; [unfold u64; lia|].
  split; [unfold u64; lia|]. split; [lia|]. unfold in_range. vm_compute. intuition congruence.
Qed.

(** ... and the range covering the last possible object is empty. *)
Theorem C32_obj_range_refuted : exists ino k, u64 ino /\ ~ in_range (fskey_new ino k) (obj_range ino).
Proof. exists (2 ^ 64 - 1), Inode. split; [unfold u64; lia|]. unfold in_range. vm_compute. intuition congruence. Qed.

Example C32_ex : fskey_new 3 (Extent 8192) = 3 * 2 ^ 64 + 2 * 2 ^ 56 + 8192 /\ fits (Extent 8192) /\
  in_range (fskey_new 3 (Extent 8192)) (extent_range 3 (Some 4096) None) /\
  ~ in_range (fskey_new 3 (ExtAttr 8192)) (extent_range 3 (Some 4096) None).
Proof. cbn [fits]. unfold in_range. vm_compute. intuition congruence. Qed.

Print Assumptions C32_keys_ordered_partial.
Print Assumptions C32_components_partial.
Print Assumptions C32_ranges_partial.
Print Assumptions C32_keys_collide_refuted.
Print Assumptions C32_extent_range_refuted.
Print Assumptions C32_obj_range_refuted.
