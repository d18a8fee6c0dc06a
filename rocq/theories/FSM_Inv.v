(** The invariant of reachable clusters. *)
From Verif Require Import Common ZMap FSM_Model FSM_Spec FSM_Proofs.

Section Inv.
Context (v : vdev) (G : geometry v).

Definition zstart z := fst (v_lim v z).
Definition zend z := snd (v_lim v z).

Definition inz (z : Z) (e : extent) : bool :=
  match v_zone_of v (fst e) with Some z' => z' =? z | None => false end.

(** LBAs held in zone [z] *)
Definition lsum (z : Z) (l : list extent) : Z := sum_len (filter (inz z) l).

Definition zone_inv (live : list extent) (z : Z) (w : zview) : Prop :=
  match w with
  | ZEmpty => lsum z live = 0
  | ZDead s e => lsum z live = 0 /\ s = 0 /\ e = 1
  | ZOpen oz x =>
      ostart oz = zstart z /\ total x = zend z - zstart z /\ 0 < oalloc oz <= total x /\
      (0 <= freed x /\ freed x + lsum z live = oalloc oz) /\
      (forall e, In e live -> inz z e = true -> fst e + snd e <= zstart z + oalloc oz) /\
      te x = TXG_MAX /\ ts x < TXG_MAX
  | ZClosed x => total x = zend z - zstart z /\ (0 <= freed x /\ freed x + lsum z live = total x) /\ 0 < te x <= TXG_MAX /\ ts x < TXG_MAX
  end.

Definition dz_v (z : Z) (w : zview) : dz :=
  match w with ZEmpty => DEmpty | ZDead _ _ => DFull | ZClosed _ => DFull | ZOpen oz _ => DOpen (zstart z + oalloc oz) end.

Record live_ok (live : list extent) : Prop := {
  l_in : forall e, In e live -> 0 < snd e /\ exists z, 0 <= z < v_zones v /\ inz z e = true /\
           zstart z <= fst e /\ fst e + snd e <= zend z;
  l_disj : ForallOrdPairs disjoint live
}.

Definition synced (c : cluster) (b : Z) : Prop :=
  sm c 0 b = Some (map (fun z => zod_v (view (fs c) z)) (zrange (b * ZPL) (Z.min ((b + 1) * ZPL) (v_zones v)))).

Record Inv (c : cluster) (live : list extent) (cl : bool) (tr : list vop) : Prop := {
  i_rep : rep (fs c);
  i_tot : total_zones (fs c) = v_zones v;
  i_one : one_open (fs c);
  i_zone : forall z, 0 <= z < v_zones v -> zone_inv live z (view (fs c) z);
  i_alloc : alloc_space c = zsum 0 (v_zones v) (fun z => alloc_v (view (fs c) z));
  i_live : live_ok live;
  i_sync : forall b, 0 <= b < spacemap_space (v_zones v) -> dirty (fs c) b = false -> synced c b;
  i_clean : cl = true -> forall b, 0 <= b < spacemap_space (v_zones v) -> dirty (fs c) b = false;
  i_dev : exists d, dev_run v (fun _ => DEmpty) tr = Some d /\ forall z, d z = dz_v z (view (fs c) z)
}.

(** ** Facts about extents and zones *)

Lemma inz_spec z e : inz z e = true <-> 0 <= z < v_zones v /\ zstart z <= fst e < zend z.
Proof.
  unfold inz. pose proof (g_zone_of v G (fst e) z) as H. unfold zstart, zend.
  destruct (v_zone_of v (fst e)) as [z'|].
  - rewrite Z.eqb_eq. rewrite <- H. split; congruence.
  - rewrite <- H. split; easy.
Qed.

Lemma inz_unique z z' e : inz z e = true -> inz z' e = true -> z = z'.
Proof.
  unfold inz. destruct (v_zone_of v (fst e)); [|easy]. intros A B. lia.
Qed.

Lemma lsum_cons z e l : lsum z (e :: l) = (if inz z e then snd e else 0) + lsum z l.
Proof. unfold lsum. cbn [filter]. destruct (inz z e); [reflexivity|lia]. Qed.

Lemma sum_len_nonneg l : (forall e, In e l -> 0 < snd e) -> 0 <= sum_len l.
Proof.
  induction l as [|e l IH]; intros H; cbn; [lia|].
  pose proof (H e ltac:(now left)). assert (0 <= sum_len l) by (apply IH; intros; apply H; now right).
  unfold sum_len in *. lia.
Qed.

Lemma lsum_nonneg z l : (forall e, In e l -> 0 < snd e) -> 0 <= lsum z l.
Proof. intros H. apply sum_len_nonneg. intros e He. apply filter_In in He. now apply H. Qed.

Lemma lsum_pos z l e : (forall e, In e l -> 0 < snd e) -> In e l -> inz z e = true -> snd e <= lsum z l.
Proof.
  induction l as [|a l IH]; intros H Hin Hz; [easy|].
  rewrite lsum_cons. pose proof (H a ltac:(now left)).
  assert (Hl : forall e, In e l -> 0 < snd e) by (intros; apply H; now right).
  pose proof (lsum_nonneg z l Hl).
  destruct Hin as [->|Hin].
  - rewrite Hz. lia.
  - specialize (IH Hl Hin Hz). destruct (inz z a); lia.
Qed.

Lemma extent_eqb_eq a b : extent_eqb a b = true <-> a = b.
Proof. destruct a, b. unfold extent_eqb. cbn [fst snd]. split; [intros H; f_equal; lia|intros [= -> ->]; lia]. Qed.

Lemma lsum_remove z e l : In e l -> lsum z (remove_one e l) = lsum z l - (if inz z e then snd e else 0).
Proof.
  induction l as [|a l IH]; intros Hin; [easy|].
  cbn [remove_one]. destruct (extent_eqb e a) eqn:E.
  - apply extent_eqb_eq in E. subst a. rewrite lsum_cons. lia.
  - rewrite !lsum_cons, IH; [lia|]. destruct Hin as [->|]; [|auto].
    assert (extent_eqb e e = true) by now apply extent_eqb_eq. congruence.
Qed.

Lemma remove_one_in e x l : In x (remove_one e l) -> In x l.
Proof.
  induction l as [|a l IH]; cbn [remove_one]; [easy|].
  destruct (extent_eqb e a); [now right|]. intros [->|H]; [now left|right; auto].
Qed.

Lemma disj_remove e l : ForallOrdPairs disjoint l -> ForallOrdPairs disjoint (remove_one e l).
Proof.
  induction 1 as [|a l F P IH]; cbn [remove_one]; [constructor|].
  destruct (extent_eqb e a); [exact P|]. constructor; [|exact IH].
  rewrite Forall_forall in *. intros x Hx. apply F. now apply remove_one_in in Hx.
Qed.

(** LBAs held in total *)
Lemma lsum_total l : (forall e, In e l -> exists z, 0 <= z < v_zones v /\ inz z e = true) ->
  zsum 0 (v_zones v) (fun z => lsum z l) = sum_len l.
Proof.
  induction l as [|e l IH]; intros H.
  - apply zsum_zero. reflexivity.
  - rewrite (zsum_ext _ _ _ (fun z => (if inz z e then snd e else 0) + lsum z l)) by (intros; apply lsum_cons).
    rewrite zsum_add, IH by (intros; apply H; now right).
    destruct (H e ltac:(now left)) as (z0 & Hz0 & E0).
    rewrite (zsum_upd 0 (v_zones v) (fun _ => 0) _ z0).
    + rewrite zsum_zero by reflexivity. rewrite E0. cbn. unfold sum_len. lia.
    + exact Hz0.
    + intros z Hz Hn. destruct (inz z e) eqn:E; [|reflexivity]. exfalso. apply Hn. eapply inz_unique; eauto.
Qed.

Lemma zone_inv_use live z w : (forall e, In e live -> 0 < snd e) -> zone_inv live z w -> use_v w = lsum z live.
Proof. intros Hl H. destruct w; cbn [zone_inv use_v] in *; lia. Qed.

Lemma live_pos live : live_ok live -> forall e, In e live -> 0 < snd e.
Proof. intros H e He. now apply (l_in live H). Qed.

Lemma lsum_zero_none live z : live_ok live -> lsum z live = 0 -> forall e, In e live -> inz z e = false.
Proof.
  intros L H e He. destruct (inz z e) eqn:E; [|reflexivity].
  pose proof (lsum_pos z live e (live_pos live L) He E). pose proof (live_pos live L e He). lia.
Qed.

(** The zone invariant only depends on the extents inside the zone. *)
Lemma zone_inv_ext l1 l2 z w : lsum z l1 = lsum z l2 ->
  (forall e, In e l2 -> inz z e = true -> In e l1) -> zone_inv l1 z w -> zone_inv l2 z w.
Proof.
  intros E H. destruct w; cbn [zone_inv]; rewrite ?E; auto.
  intros (A & B & C & D & F & K). repeat split; try tauto. intros e He Hz. apply F; auto.
Qed.

Lemma dev_run_app d l1 l2 : dev_run v d (l1 ++ l2) = obind (dev_run v d l1) (fun d => dev_run v d l2).
Proof.
  revert d; induction l1 as [|o l1 IH]; intros d; [reflexivity|].
  cbn [app dev_run]. destruct (dev_step v d o); cbn [obind]; [apply IH|reflexivity].
Qed.

(** ** A free-space map change at one zone *)

Lemma changes_alloc f f' z w : changes f f' z w -> 0 <= z < v_zones v ->
  zsum 0 (v_zones v) (fun z => alloc_v (view f' z)) =
  zsum 0 (v_zones v) (fun z => alloc_v (view f z)) - alloc_v (view f z) + alloc_v w.
Proof.
  intros C Hz. rewrite (zsum_upd 0 (v_zones v) (fun z => alloc_v (view f z)) _ z Hz).
  - now rewrite (c_at _ _ _ _ C).
  - intros j _ Hj. now rewrite (c_off _ _ _ _ C).
Qed.

Lemma changes_synced f f' z w c a m b : changes f f' z w -> m = sm c -> f = fs c ->
  (forall b, 0 <= b < spacemap_space (v_zones v) -> dirty f b = false -> synced c b) ->
  0 <= b < spacemap_space (v_zones v) -> dirty f' b = false -> synced (mkcl f' a m) b.
Proof.
  intros C -> -> S Hb D. rewrite (c_dirty _ _ _ _ C) in D. apply orb_false_elim in D. destruct D as [D1 D2].
  specialize (S b Hb D2). unfold synced in *. cbn [sm fs]. rewrite S. f_equal.
  apply map_ext_in. intros j Hj. apply in_zrange in Hj. f_equal. symmetry. apply (c_off _ _ _ _ C).
  intros ->. apply Z.eqb_neq in D1. apply D1. unfold ZPL in *.
  apply Z.div_unique_pos with (r := z - b * 255); lia.
Qed.

Lemma one_open_changes f f' z w : one_open f -> changes f f' z w ->
  ((exists oz x, w = ZOpen oz x) -> forall j oz x, j <> z -> view f j <> ZOpen oz x) -> one_open f'.
Proof.
  intros O C H z1 z2 oz1 x1 oz2 x2 V1 V2.
  destruct (Z.eq_dec z1 z) as [E1|N1], (Z.eq_dec z2 z) as [E2|N2]; subst; auto.
  - exfalso. rewrite (c_off _ _ _ _ C) in V2 by auto. rewrite (c_at _ _ _ _ C) in V1.
    eapply (H ltac:(eauto) z2); eauto.
  - exfalso. rewrite (c_off _ _ _ _ C) in V1 by auto. rewrite (c_at _ _ _ _ C) in V2.
    eapply (H ltac:(eauto) z1); eauto.
  - rewrite (c_off _ _ _ _ C) in V1, V2 by auto. eapply O; eauto.
Qed.

(** The general preservation lemma: zone [z] changes, the extents of the other
    zones are unaffected. *)
Lemma inv_change c live cl tr f' a' live' o z w :
  Inv c live cl tr -> 0 <= z < v_zones v -> changes (fs c) f' z w ->
  ((exists oz x, w = ZOpen oz x) -> forall j oz x, j <> z -> view (fs c) j <> ZOpen oz x) ->
  zone_inv live' z w ->
  (forall j, j <> z -> lsum j live' = lsum j live /\ forall e, In e live' -> inz j e = true -> In e live) ->
  live_ok live' ->
  a' = alloc_space c - alloc_v (view (fs c) z) + alloc_v w ->
  (forall d, (forall j, d j = dz_v j (view (fs c) j)) ->
     exists d', dev_run v d o = Some d' /\ forall j, d' j = if j =? z then dz_v z w else d j) ->
  Inv (mkcl f' a' (sm c)) live' false (tr ++ o).
Proof.
  intros [] Hz C HO HZ HL HLok Ha HD. split; cbn [fs alloc_space sm].
  - apply C.
  - rewrite (c_tot _ _ _ _ C). auto.
  - eapply one_open_changes; eauto.
  - intros j Hj. destruct (Z.eq_dec j z) as [->|N].
    + now rewrite (c_at _ _ _ _ C).
    + rewrite (c_off _ _ _ _ C) by auto. destruct (HL j N) as [E H].
      eapply zone_inv_ext; [symmetry; exact E|exact H|auto].
  - rewrite (changes_alloc _ _ _ _ C Hz). lia.
  - auto.
  - intros b Hb D. eapply changes_synced; eauto.
  - discriminate.
  - destruct i_dev0 as (d & Hd & Hv). destruct (HD d Hv) as (d' & Hd' & Hv').
    exists d'. split; [rewrite dev_run_app, Hd; exact Hd'|].
    intros j. rewrite Hv'. destruct (Z.eqb_spec j z) as [->|N].
    + now rewrite (c_at _ _ _ _ C).
    + rewrite (c_off _ _ _ _ C) by auto. apply Hv.
Qed.

(** ** Freeing *)

Lemma free_inv c live cl tr lba len : Inv c live cl tr -> In (lba, len) live ->
  exists c', free v lba len c = Some c' /\ Inv c' (remove_one (lba, len) live) false (tr ++ []).
Proof.
  intros I Hin. pose proof (i_live _ _ _ _ I) as L.
  destruct (l_in live L (lba, len) Hin) as (Hlen & z & Hz & Hinz & Hs & He). cbn [fst snd] in *.
  pose proof (i_zone _ _ _ _ I z Hz) as ZI. pose proof (i_rep _ _ _ _ I) as R.
  pose proof (lsum_pos z live (lba, len) (live_pos live L) Hin Hinz) as Hlp. cbn [snd] in Hlp.
  set (live' := remove_one (lba, len) live).
  assert (Hls : forall j, lsum j live' = lsum j live - if inz j (lba, len) then len else 0)
    by (intros; now apply lsum_remove).
  assert (Hother : forall j, j <> z -> lsum j live' = lsum j live /\ forall e, In e live' -> inz j e = true -> In e live).
  { intros j Hj. rewrite Hls. split.
    - destruct (inz j (lba, len)) eqn:E; [|lia]. exfalso. apply Hj. eapply inz_unique; eauto.
    - intros e Hein _. now apply remove_one_in in Hein. }
  assert (HLok : live_ok live').
  { split; [|apply disj_remove; apply L]. intros e Hein. apply remove_one_in in Hein. now apply L. }
  assert (Hlen32 : len < 2^32) by (pose proof (g_size v G z Hz); unfold U32MAX, zstart, zend in *; lia).
  specialize (Hls z). rewrite Hinz in Hls.
  assert (Hzo : v_zone_of v lba = Some z).
  { unfold inz in Hinz. cbn [fst] in Hinz. destruct (v_zone_of v lba); [|easy]. f_equal. lia. }
  destruct (free_spec (fs c) z len R) as (f1 & Ef & C1).
  { destruct (view (fs c) z) as [| | oz x | x]; cbn [zone_inv] in ZI; lia. }
  { exact Hlen32. }
  unfold free. rewrite Hzo. cbn [obind]. rewrite Ef. cbn [obind].
  pose proof (c_rep _ _ _ _ C1) as R1.
  rewrite is_closed_view by (auto; lia).
  destruct (view (fs c) z) as [| s e | oz x | x] eqn:V; cbn [zone_inv] in ZI; try lia.
  - (* open *)
    rewrite (c_at _ _ _ _ C1). cbn [free_v obind Z.eqb].
    eexists. split; [reflexivity|]. unfold set_fs.
    eapply inv_change with (z := z); eauto.
    + intros _ j oz' x' Hj V'. apply Hj. eapply (i_one _ _ _ _ I); eauto.
    + cbn [free_v zone_inv freed total te ts]. destruct ZI as (A1 & A2 & A3 & A4 & A5 & A6 & A7).
      repeat split; auto; try lia. intros e0 He0. apply remove_one_in in He0. now apply A5.
    + rewrite V. cbn [free_v alloc_v]. lia.
    + intros d Hd. exists d. split; [reflexivity|]. intros j. destruct (Z.eqb_spec j z) as [->|]; [|reflexivity].
      rewrite Hd, V. reflexivity.
  - (* closed *)
    rewrite (c_at _ _ _ _ C1). cbn [free_v].
    pose proof (lsum_nonneg z live' (live_pos live' HLok)) as Hnn.
    assert (Hu : in_use f1 z = Some (use_v (view f1 z))).
    { apply in_use_view; auto; [lia|]. rewrite (c_at _ _ _ _ C1). cbn [free_v use_v freed total]. lia. }
    rewrite Hu. cbn [obind]. rewrite (c_at _ _ _ _ C1). cbn [free_v use_v freed total].
    destruct (Z.eqb_spec (total x - (freed x + len)) 0) as [Ez|Nz].
    + (* kill *)
      destruct (kill_spec f1 z _ R1 (c_at _ _ _ _ C1)) as (f2 & Ek & C2).
      rewrite Ek. cbn [obind total].
      eexists. split; [reflexivity|].
      assert (C12 : changes (fs c) f2 z (ZDead 0 1)).
      { split; [apply C2| | | |].
        - rewrite (c_tot _ _ _ _ C2). apply C1.
        - apply C2.
        - intros j Hj. rewrite (c_off _ _ _ _ C2) by auto. now apply C1.
        - intros b. rewrite (c_dirty _ _ _ _ C2), (c_dirty _ _ _ _ C1). destruct (b =? z / ZPL); reflexivity. }
      eapply inv_change with (z := z); eauto.
      * intros (? & ? & ?). discriminate.
      * cbn [zone_inv]. repeat split; lia.
      * rewrite V. cbn [alloc_v]. lia.
      * intros d Hd. exists d. split; [reflexivity|]. intros j. destruct (Z.eqb_spec j z) as [->|]; [|reflexivity].
        rewrite Hd, V. reflexivity.
    + eexists. split; [reflexivity|]. unfold set_fs.
      eapply inv_change with (z := z); eauto.
      * intros (? & ? & X). discriminate X.
      * cbn [free_v zone_inv freed total te ts]. repeat split; lia.
      * rewrite V. cbn [free_v alloc_v total]. lia.
      * intros d Hd. exists d. split; [reflexivity|]. intros j. destruct (Z.eqb_spec j z) as [->|]; [|reflexivity].
        rewrite Hd, V. reflexivity.
Qed.

(** ** Writing *)

Lemma live_ok_cons live z lba space : live_ok live -> 0 <= z < v_zones v -> 0 < space ->
  zstart z <= lba -> lba + space <= zend z ->
  (forall e, In e live -> inz z e = true -> fst e + snd e <= lba) ->
  live_ok ((lba, space) :: live).
Proof.
  intros L Hz Hs Ha Hb Hd. split.
  - intros e [<-|He]; [|now apply L]. cbn [fst snd]. split; [auto|]. exists z. split; [auto|].
    split; [apply inz_spec; cbn [fst]; lia|]. auto.
  - constructor; [|apply L]. apply Forall_forall. intros e He. intros l [H1 H2]. cbn [fst snd] in H1.
    destruct (l_in live L e He) as (Hp & z' & Hz' & Hi & Hs' & He').
    destruct (Z.eq_dec z' z) as [->|N].
    + specialize (Hd e He Hi). lia.
    + assert (X1 : inz z (l, 1) = true) by (apply inz_spec; cbn [fst]; lia).
      assert (X2 : inz z' (l, 1) = true) by (apply inz_spec; cbn [fst]; lia).
      apply N. eapply inz_unique; eauto.
Qed.

Lemma other_cons live z lba space : 0 <= z < v_zones v -> zstart z <= lba < zend z ->
  forall j, j <> z -> lsum j ((lba, space) :: live) = lsum j live /\
     forall e, In e ((lba, space) :: live) -> inz j e = true -> In e live.
Proof.
  intros Hz Hl j Hj. assert (X : inz z (lba, space) = true) by (apply inz_spec; cbn [fst]; lia).
  assert (Y : inz j (lba, space) = false).
  { destruct (inz j (lba, space)) eqn:E; [|reflexivity]. exfalso. apply Hj. eapply inz_unique; eauto. }
  split; [rewrite lsum_cons, Y; lia|]. intros e [<-|He]; [congruence|auto].
Qed.

(** Opening a fresh zone and writing into it. *)
Definition write_fresh (space txg : Z) (c : cluster) : option (cluster * wres * list vop) :=
  match find_empty (fs c) with
  | None => Some (c, WNoSpace, [])
  | Some z =>
      let* (f, e) := open_zone z (fst (v_lim v z)) (snd (v_lim v z)) space txg (fs c) in
      match e with
      | OzNoSpace => Some (mkcl f (alloc_space c) (sm c), WNoSpace, [])
      | OzOk None => None
      | OzOk (Some (_, lba)) =>
          Some (mkcl f (alloc_space c + space) (sm c), WOk lba, [VOpen z; VWrite z lba space])
      end
  end.

Lemma inv_weaken c live cl tr : Inv c live cl tr -> Inv c live false (tr ++ []).
Proof. rewrite app_nil_r. intros []. now split. Qed.

Lemma cluster_eta c : mkcl (fs c) (alloc_space c) (sm c) = c.
Proof. now destruct c. Qed.

Lemma write_fresh_inv c live cl tr space txg : Inv c live cl tr -> 0 < space < 2^32 -> 0 <= txg < TXG_MAX ->
  (forall z oz x, view (fs c) z <> ZOpen oz x) ->
  exists c' r o, write_fresh space txg c = Some (c', r, o) /\
    Inv c' (live_next live (CWrite space txg) (RWrite r)) false (tr ++ o) /\
    ((exists z, 0 <= z < v_zones v /\ view (fs c) z = ZEmpty) ->
      (forall z, 0 <= z < v_zones v -> space <= zend z - zstart z) -> exists lba, r = WOk lba) /\
    (r = WNoSpace -> forall z, view (fs c') z = view (fs c) z).
Proof.
  intros I Hs Ht Hno. pose proof (i_rep _ _ _ _ I) as R. pose proof (i_tot _ _ _ _ I) as T.
  unfold write_fresh. pose proof (find_empty_spec (fs c) R) as FE. rewrite T in FE.
  destruct (find_empty (fs c)) as [z|].
  2: { exists c, WNoSpace, []. split; [reflexivity|]. split; [eapply inv_weaken; eauto|].
       split; [|reflexivity]. intros (z & Hz & Ez). now destruct (FE z Hz). }
  destruct FE as [Hz Ez]. pose proof (g_size v G z Hz) as Hsz. fold (zstart z) (zend z) in *.
  pose proof (i_zone _ _ _ _ I z Hz) as ZI. rewrite Ez in ZI. cbn [zone_inv] in ZI.
  pose proof (i_live _ _ _ _ I) as L.
  destruct (Z.ltb_spec (zend z - zstart z) space) as [Hsp|Hsp].
  - destruct (open_zone_nospace (fs c) z (zstart z) (zend z) space txg R ltac:(lia) Ez ltac:(lia) Hsp) as (f' & E & C).
    rewrite E. cbn [obind]. exists (mkcl f' (alloc_space c) (sm c)), WNoSpace, [].
    split; [reflexivity|]. split; [|split].
    + cbn [live_next]. eapply inv_change with (z := z); eauto.
      * rewrite Ez. cbn [alloc_v]. lia.
      * intros d Hd. exists d. split; [reflexivity|]. intros j. destruct (Z.eqb_spec j z) as [->|]; [|reflexivity].
        rewrite Hd, Ez. reflexivity.
    + intros _ H. specialize (H z Hz). lia.
    + intros _ j. cbn [fs]. destruct (Z.eq_dec j z) as [->|N]; [now rewrite (c_at _ _ _ _ C)|now apply C].
  - unfold U32MAX in Hsz.
    destruct (open_zone_spec (fs c) z (zstart z) (zend z) space txg R ltac:(lia) Ez ltac:(lia) ltac:(lia) ltac:(lia)) as (f' & E & C).
    rewrite E. cbn [obind]. destruct (Z.gtb_spec space 0); [|lia].
    exists (mkcl f' (alloc_space c + space) (sm c)), (WOk (zstart z)), [VOpen z; VWrite z (zstart z) space].
    split; [reflexivity|]. split; [|split; [eauto|discriminate]].
    cbn [live_next]. eapply inv_change with (z := z); eauto.
    + cbn [zone_inv ostart oalloc total te ts freed]. rewrite lsum_cons, ZI.
      assert (X : inz z (zstart z, space) = true) by (apply inz_spec; cbn [fst]; lia).
      rewrite X. cbn [snd]. repeat split; try lia.
      intros e [<-|He] Hi; [cbn [fst snd]; lia|].
      rewrite (lsum_zero_none live z L ZI e He) in Hi. discriminate.
    + apply other_cons; auto. lia.
    + eapply live_ok_cons with (z := z); eauto; try lia.
      intros e He Hi. rewrite (lsum_zero_none live z L ZI e He) in Hi. discriminate.
    + rewrite Ez. cbn [alloc_v oalloc]. lia.
    + intros d Hd. cbn [dev_run dev_step]. rewrite Hd, Ez. cbn [dz_v obind].
      destruct (Z.leb_spec 0 z); [|lia]. destruct (Z.ltb_spec z (v_zones v)); [|lia]. cbn [andb obind]. unfold dset at 1. rewrite Z.eqb_refl.
      fold (zstart z) (zend z). rewrite Z.eqb_refl. destruct (Z.ltb_spec 0 space); [|lia]. cbn [andb]. destruct (Z.leb_spec (zstart z + space) (zend z)); [|lia].
      cbn [obind]. eexists. split; [reflexivity|]. intros j. unfold dset. destruct (Z.eqb_spec j z); reflexivity.
Qed.

Lemma write_inv c live cl tr space txg : Inv c live cl tr -> 0 < space < 2^32 -> 0 <= txg < TXG_MAX ->
  exists c' r o, write v space txg c = Some (c', r, o) /\
    Inv c' (live_next live (CWrite space txg) (RWrite r)) false (tr ++ o) /\
    ((exists z, 0 <= z < v_zones v /\ view (fs c) z = ZEmpty) ->
      (forall z, 0 <= z < v_zones v -> space <= zend z - zstart z) -> exists lba, r = WOk lba) /\
    ((forall z, 0 <= z < v_zones v -> exists x, view (fs c) z = ZClosed x) ->
      r = WNoSpace /\ forall z, view (fs c') z = view (fs c) z).
Proof.
  intros I Hs Ht. pose proof (i_rep _ _ _ _ I) as R. pose proof (i_tot _ _ _ _ I) as T.
  pose proof (i_live _ _ _ _ I) as L.
  destruct (open_case (fs c) R (i_one _ _ _ _ I)) as [[On Hno]|(z & oz & x & V & Oz)].
  - destruct (write_fresh_inv c live cl tr space txg I Hs Ht Hno) as (c' & r & o & E & I' & W & W').
    exists c', r, o. split; [|split; [exact I'|split; [exact W|]]].
    + unfold write. rewrite try_allocate_none by auto. cbn [obind close_zones].
      unfold write_fresh in E. destruct (find_empty (fs c)) as [z|].
      * destruct (open_zone _ _ _ _ _ _) as [[f e]|]; [|discriminate]. cbn [obind] in *.
        destruct e as [[[z' lba]|]|]; [|discriminate|]; now injection E as <- <- <-.
      * injection E as <- <- <-. now rewrite cluster_eta.
    + intros H. assert (r = WNoSpace).
      { unfold write_fresh in E. pose proof (find_empty_spec (fs c) R) as FE. rewrite T in FE.
        destruct (find_empty (fs c)) as [z|]; [|now injection E as <- <- <-].
        destruct FE as [Hz Ez]. destruct (H z Hz) as [x Vx]. congruence. }
      split; [auto|]. now apply W'.
  - assert (Hz : 0 <= z < v_zones v).
    { rewrite <- T. pose proof (view_range (fs c) z ltac:(congruence)). pose proof (r_len _ R). lia. }
    pose proof (i_zone _ _ _ _ I z Hz) as ZI. rewrite V in ZI. cbn [zone_inv] in ZI.
    destruct ZI as (A1 & A2 & A3 & A4 & A5 & A6 & A7).
    pose proof (g_size v G z Hz) as Hsz. fold (zstart z) (zend z) in *. unfold U32MAX in Hsz.
    assert (Hnc : (forall z, 0 <= z < v_zones v -> exists x, view (fs c) z = ZClosed x) -> False).
    { intros H. destruct (H z Hz) as [x0 Hx0]. congruence. }
    unfold write.
    destruct (Z.ltb_spec (total x - oalloc oz) space) as [Hf|Hf].
    + (* nearly full: close it, open another *)
      rewrite (try_allocate_full (fs c) space z oz x R (i_one _ _ _ _ I) V ltac:(lia) ltac:(lia) ltac:(lia)). cbn [obind close_zones].
      destruct (finish_spec (fs c) z txg oz x R V ltac:(lia) ltac:(lia)) as (f1 & E1 & C1).
      rewrite E1. cbn [obind].
      assert (I1 : Inv (mkcl f1 (alloc_space c + (total x - oalloc oz)) (sm c)) live false (tr ++ [VFinish z])).
      { eapply inv_change with (z := z); eauto.
        - intros (? & ? & X). discriminate X.
        - cbn [zone_inv freed total te ts]. repeat split; lia.
        - rewrite V. cbn [alloc_v total]. lia.
        - intros d Hd. cbn [dev_run dev_step]. rewrite Hd, V. cbn [dz_v obind].
          eexists. split; [reflexivity|]. reflexivity. }
      destruct (write_fresh_inv _ live false _ space txg I1 Hs Ht) as (c' & r & o & E & I' & W & W').
      { intros j oz' x'. cbn [fs]. destruct (Z.eq_dec j z) as [->|N].
        - rewrite (c_at _ _ _ _ C1). discriminate.
        - rewrite (c_off _ _ _ _ C1) by auto. intros V'. apply N. eapply (i_one _ _ _ _ I); eauto. }
      exists c', r, (VFinish z :: o). split; [|split; [|split]].
      * unfold write_fresh in E. cbn [fs alloc_space sm] in E. destruct (find_empty f1) as [z1|].
        -- destruct (open_zone _ _ _ _ _ _) as [[f e]|]; [|discriminate]. cbn [obind] in *.
           destruct e as [[[z' lba]|]|]; [|discriminate|]; now injection E as <- <- <-.
        -- now injection E as <- <- <-.
      * rewrite <- app_assoc in I'. exact I'.
      * intros (z0 & Hz0 & Ez0). apply W. exists z0. split; [auto|]. cbn [fs].
        rewrite (c_off _ _ _ _ C1); [exact Ez0|]. congruence.
      * intros H. now destruct (Hnc H).
    + (* fits *)
      destruct (try_allocate_ok (fs c) space z oz x R (i_one _ _ _ _ I) V ltac:(lia) ltac:(lia)) as (f1 & E1 & C1).
      rewrite E1. cbn [obind close_zones app].
      eexists _, _, _. split; [reflexivity|]. split; [|split; [eauto|intros H; now destruct (Hnc H)]].
      cbn [live_next]. rewrite A1. eapply inv_change with (z := z); eauto.
      * intros _ j oz' x' Hj V'. apply Hj. eapply (i_one _ _ _ _ I); eauto.
      * cbn [zone_inv ostart oalloc total te ts freed]. rewrite lsum_cons.
        assert (X : inz z (zstart z + oalloc oz, space) = true) by (apply inz_spec; cbn [fst]; lia).
        rewrite X. cbn [snd]. repeat split; auto; try lia.
        intros e [<-|He] Hi; [cbn [fst snd]; lia|]. specialize (A5 e He Hi). lia.
      * apply other_cons; auto. lia.
      * eapply live_ok_cons with (z := z); eauto; lia.
      * rewrite V. cbn [alloc_v oalloc]. lia.
      * intros d Hd. cbn [dev_run dev_step]. rewrite Hd, V. cbn [dz_v obind].
        rewrite Z.eqb_refl. fold (zend z). destruct (Z.ltb_spec 0 space); [|lia]. cbn [andb]. destruct (Z.leb_spec (zstart z + oalloc oz + space) (zend z)); [|lia].
        cbn [obind]. eexists. split; [reflexivity|]. intros j. unfold dset. cbn [dz_v oalloc].
        destruct (Z.eqb_spec j z); [f_equal; lia|reflexivity].
Qed.

(** ** Advancing the transaction *)

Lemma dev_erase l : forall d, NoDup l -> (forall z, In z l -> d z = DFull) ->
  exists d', dev_run v d (map VErase l) = Some d' /\ forall j, d' j = if existsb (Z.eqb j) l then DEmpty else d j.
Proof.
  induction l as [|z l IH]; intros d ND H.
  - exists d. split; reflexivity.
  - inversion ND; subst. cbn [map dev_run dev_step]. rewrite H by now left. cbn [obind].
    destruct (IH (dset d z DEmpty)) as (d' & Hd & Hv); auto.
    { intros y Hy. unfold dset. destruct (Z.eqb_spec y z); [subst; contradiction|]. apply H. now right. }
    exists d'. split; [exact Hd|]. intros j. rewrite Hv. cbn [existsb]. unfold dset.
    destruct (existsb (Z.eqb j) l), (j =? z); reflexivity.
Qed.

Lemma existsb_eqb_in j l : existsb (Z.eqb j) l = true <-> In j l.
Proof.
  rewrite existsb_exists. split.
  - intros (x & Hx & E). apply Z.eqb_eq in E. now subst.
  - intros H. exists j. split; [auto|apply Z.eqb_refl].
Qed.

Lemma advance_inv c live cl tr : Inv c live cl tr ->
  let c' := fst (advance c) in let o := snd (advance c) in
  Inv c' live false (tr ++ o) /\
  (forall z, In (VErase z) o <-> exists s e, view (fs c) z = ZDead s e) /\
  (forall z, view (fs c') z = match view (fs c) z with ZDead _ _ => ZEmpty | w => w end).
Proof.
  intros I. pose proof (i_rep _ _ _ _ I) as R. pose proof (reap_spec (fs c) R) as RS.
  unfold advance. destruct (reap (fs c)) as [f' dead]. cbn [fst snd] in *. cbv zeta in RS |- *.
  destruct RS as (R' & T' & Hd & ND & V1 & V2 & Di).
  assert (Hv : forall z, view f' z = match view (fs c) z with ZDead _ _ => ZEmpty | w => w end).
  { intros z. destruct (in_dec Z.eq_dec z dead) as [Hi|Hi].
    - rewrite V1 by auto. apply Hd in Hi. destruct Hi as (s & e & ->). reflexivity.
    - rewrite V2 by auto. destruct (view (fs c) z) eqn:V; auto. exfalso. apply Hi. apply Hd. eauto. }
  split; [|split; [|exact Hv]].
  2: { intros z. rewrite <- Hd. rewrite in_map_iff. split; [now intros (y & [= ->] & H)|]. intros H. eauto. }
  destruct I. split; cbn [set_fs fs alloc_space sm]; auto.
  - congruence.
  - intros z z' oz x oz' x'. rewrite !Hv. intros A B.
    destruct (view (fs c) z) eqn:E1; try discriminate. destruct (view (fs c) z') eqn:E2; try discriminate.
    eapply i_one0; eauto.
  - intros z Hz. rewrite Hv. specialize (i_zone0 z Hz). destruct (view (fs c) z); auto. cbn in *. tauto.
  - rewrite i_alloc0. apply zsum_ext. intros z Hz. rewrite Hv. now destruct (view (fs c) z).
  - intros b Hb D. rewrite Di in D. apply orb_false_elim in D. destruct D as [D1 D2].
    specialize (i_sync0 b Hb D2). unfold synced in *. cbn [sm fs set_fs]. rewrite i_sync0. f_equal.
    apply map_ext_in. intros z Hz. apply in_zrange in Hz. f_equal. symmetry. apply V2. intros Hi.
    assert (existsb (fun z0 => b =? z0 / ZPL) dead = true); [|congruence].
    apply existsb_exists. exists z. split; [auto|]. apply Z.eqb_eq. unfold ZPL in *.
    apply Z.div_unique_pos with (r := z - b * 255); lia.
  - discriminate.
  - destruct i_dev0 as (d & Hd1 & Hv1).
    destruct (dev_erase dead d ND) as (d' & Hd2 & Hv2).
    { intros z Hz. rewrite Hv1. apply Hd in Hz. destruct Hz as (s & e & ->). reflexivity. }
    exists d'. split; [rewrite dev_run_app, Hd1; exact Hd2|].
    intros z. rewrite Hv2, Hv. destruct (existsb (Z.eqb z) dead) eqn:X.
    + apply existsb_eqb_in, Hd in X. destruct X as (s & e & ->). reflexivity.
    + rewrite Hv1. destruct (view (fs c) z) eqn:V; try reflexivity.
      assert (existsb (Z.eqb z) dead = true); [|congruence]. apply existsb_eqb_in, Hd. eauto.
Qed.

(** ** Flushing *)

(** The view of a zone after its tail has been padded. *)
Definition pad_v (w : zview) : zview :=
  match w with
  | ZOpen oz x => let g := gap_of v (oalloc oz) in
                  ZOpen (mkoz (ostart oz) (oalloc oz + g)) (mkzone (freed x + g) (total x) (ts x) (te x))
  | w => w
  end.

Lemma gap_nonneg a : 0 <= gap_of v a.
Proof. unfold gap_of. pose proof (g_stripe v G). apply Z.mod_pos_bound. lia. Qed.

Lemma gap_fits z a : 0 <= z < v_zones v -> a <= zend z - zstart z ->
  a + gap_of v a <= zend z - zstart z /\ (a + gap_of v a) mod v_stripe v = 0.
Proof.
  intros Hz Ha. pose proof (g_stripe v G) as Hs. pose proof (g_aligned v G z Hz) as Al. fold (zstart z) (zend z) in Al.
  unfold gap_of. set (s := v_stripe v) in *. set (n := zend z - zstart z) in *.
  assert (E : (a + (- a) mod s) mod s = 0).
  { rewrite Z.add_mod_idemp_r by lia. replace (a + - a) with 0 by lia. apply Z.mod_0_l. lia. }
  split; [|exact E].
  pose proof (Z.mod_pos_bound (-a) s ltac:(lia)) as B.
  set (g := (- a) mod s) in *.
  pose proof (Z.div_mod (a + g) s ltac:(lia)) as D1. rewrite E in D1.
  pose proof (Z.div_mod n s ltac:(lia)) as D2. rewrite Al in D2.
  set (p := (a + g) / s) in *. set (q := n / s) in *.
  assert (p <= q); [|nia]. 
  assert (p < q + 1); [|lia]. apply Z.mul_lt_mono_pos_l with (p := s); lia.
Qed.

Lemma gap_idem a : gap_of v (a + gap_of v a) = 0.
Proof.
  unfold gap_of. pose proof (g_stripe v G) as Hs. set (s := v_stripe v) in *.
  assert (E : (a + (- a) mod s) mod s = 0).
  { rewrite Z.add_mod_idemp_r by lia. replace (a + - a) with 0 by lia. apply Z.mod_0_l. lia. }
  apply Z.mod_divide in E; [|lia]. apply Z.mod_divide; [lia|]. now apply Z.divide_opp_r.
Qed.

Lemma pad_idem w : pad_v (pad_v w) = pad_v w.
Proof.
  destruct w; try reflexivity. cbn [pad_v ostart oalloc freed total ts te].
  rewrite gap_idem. rewrite !Z.add_0_r. reflexivity.
Qed.

Lemma waste_all_spec c live cl tr : Inv c live cl tr ->
  exists f a o, waste_all v (map fst (opens (fs c))) (fs c) (alloc_space c) = Some (f, a, o) /\
    rep f /\ total_zones f = v_zones v /\ one_open f /\
    (forall z, view f z = pad_v (view (fs c) z)) /\
    (forall z, 0 <= z < v_zones v -> zone_inv live z (view f z)) /\
    a = zsum 0 (v_zones v) (fun z => alloc_v (view f z)) /\
    (exists d, dev_run v (fun _ => DEmpty) (tr ++ o) = Some d /\ forall z, d z = dz_v z (view f z)) /\
    (forall b, 0 <= b < spacemap_space (v_zones v) -> dirty f b = false -> synced (mkcl f a (sm c)) b).
Proof.
  intros I. pose proof (i_rep _ _ _ _ I) as R. pose proof (i_tot _ _ _ _ I) as T.
  destruct (open_case (fs c) R (i_one _ _ _ _ I)) as [[On Hno]|(z & oz & x & V & Oz)].
  - rewrite On. cbn [map waste_all]. exists (fs c), (alloc_space c), []. rewrite app_nil_r.
    destruct I. split; [reflexivity|]. split; [auto|]. split; [auto|]. split; [auto|].
    split; [|split; [auto|split; [auto|split; [auto|]]]].
    + intros j. specialize (Hno j). destruct (view (fs c) j); try reflexivity. now destruct (Hno oz x).
    + rewrite cluster_eta. auto.
  - assert (Hz : 0 <= z < v_zones v).
    { rewrite <- T. pose proof (view_range (fs c) z ltac:(congruence)). pose proof (r_len _ R). lia. }
    pose proof (i_zone _ _ _ _ I z Hz) as ZI. rewrite V in ZI. cbn [zone_inv] in ZI.
    destruct ZI as (A1 & A2 & A3 & A4 & A5 & A6 & A7).
    pose proof (g_size v G z Hz) as Hsz. fold (zstart z) (zend z) in *. unfold U32MAX in Hsz.
    destruct (gap_fits z (oalloc oz) Hz ltac:(lia)) as [Gf Ga]. pose proof (gap_nonneg (oalloc oz)) as Gn.
    rewrite Oz. cbn [map fst waste_all]. rewrite Oz. cbn [zm_get]. rewrite Z.eqb_refl. cbn [obind].
    destruct (waste_spec (fs c) z (gap_of v (oalloc oz)) oz x R V ltac:(lia) ltac:(lia)) as (f1 & E1 & C1).
    rewrite E1. cbn [obind]. eexists _, _, _. split; [reflexivity|].
    assert (I1 : Inv (mkcl f1 (alloc_space c + gap_of v (oalloc oz)) (sm c)) live false (tr ++ [VFlush z (gap_of v (oalloc oz))])).
    { eapply inv_change with (z := z); eauto.
      - intros _ j oz' x' Hj V'. apply Hj. eapply (i_one _ _ _ _ I); eauto.
      - cbn [zone_inv ostart oalloc total te ts freed]. split; [exact A1|]. split; [exact A2|]. split; [lia|]. split; [lia|]. split; [|lia].
        intros e He Hi. specialize (A5 e He Hi). lia.
      - apply I.
      - rewrite V. cbn [alloc_v oalloc]. lia.
      - intros d Hd. cbn [dev_run dev_step]. rewrite Hd, V. cbn [dz_v obind]. fold (zstart z) (zend z).
        destruct (Z.leb_spec 0 (gap_of v (oalloc oz))); [|lia].
        destruct (Z.leb_spec (zstart z + oalloc oz + gap_of v (oalloc oz)) (zend z)); [|lia].
        replace (zstart z + oalloc oz + gap_of v (oalloc oz) - zstart z) with (oalloc oz + gap_of v (oalloc oz)) by lia.
        rewrite Ga. cbn [andb Z.eqb obind]. eexists. split; [reflexivity|]. intros j. unfold dset. cbn [dz_v oalloc].
        destruct (Z.eqb_spec j z); [f_equal; lia|reflexivity]. }
    destruct I1. cbn [fs alloc_space sm] in *.
    split; [auto|]. split; [auto|]. split; [auto|].
    split; [|split; [auto|split; [auto|split; [auto|auto]]]].
    intros j. destruct (Z.eq_dec j z) as [->|N].
    + rewrite (c_at _ _ _ _ C1), V. reflexivity.
    + rewrite (c_off _ _ _ _ C1) by auto. destruct (view (fs c) j) eqn:Vj; try reflexivity.
      exfalso. apply N. eapply (i_one _ _ _ _ I); eauto.
Qed.

Lemma write_blocks_spec f idx bs : forall m, rep f -> (forall b, In b bs -> 0 <= b) ->
  exists m', write_blocks f idx bs m = Some m' /\
    (forall i j, m' i j = if (i =? idx) && existsb (Z.eqb j) bs then block_of f j else m i j).
Proof.
  induction bs as [|b bs IH]; intros m R H.
  - exists m. split; [reflexivity|]. intros i j. cbn. now rewrite andb_false_r.
  - cbn [write_blocks]. assert (0 <= b) by (apply H; now left).
    rewrite (block_of_view f b) by auto. cbn [obind].
    set (m1 := fun i j => if (i =? idx) && (j =? b) then _ else m i j).
    destruct (IH m1 R) as (m' & E & V); [intros; apply H; now right|].
    exists m'. split; [exact E|]. intros i j. rewrite V. cbn [existsb]. unfold m1.
    destruct (Z.eqb_spec j b) as [->|]; cbn [orb]; [|now rewrite andb_false_r].
    rewrite (block_of_view f b) by auto.
    destruct (i =? idx), (existsb (Z.eqb b) bs); reflexivity.
Qed.

(** After a flush of space map 0, or of space map 1 when nothing needed
    flushing, every block of space map 0 describes the current state. *)
Lemma flush_spec c live cl tr idx : Inv c live cl tr ->
  (idx = 0 \/ ((forall z, view (fs c) z = pad_v (view (fs c) z)) /\
               forall b, 0 <= b < spacemap_space (v_zones v) -> synced c b)) ->
  exists c' o, flush v idx c = Some (c', o) /\ Inv c' live true (tr ++ o) /\
    (forall z, view (fs c') z = pad_v (view (fs c) z)) /\
    (forall b, 0 <= b < spacemap_space (v_zones v) -> synced c' b).
Proof.
  intros I Hidx. destruct (waste_all_spec c live cl tr I) as (f & a & o & E & R & T & O & Vw & ZI & Ea & D & S).
  unfold flush. rewrite E. cbn [obind].
  destruct (write_blocks_spec f idx (filter (dirty f) (zrange 0 (spacemap_space (total_zones f)))) (sm c) R) as (m & Em & Vm).
  { intros b Hb. apply filter_In in Hb. destruct Hb as [Hb _]. apply in_zrange in Hb. lia. }
  rewrite Em. cbn [obind]. eexists _, _. split; [reflexivity|].
  assert (SA : forall b, 0 <= b < spacemap_space (v_zones v) -> synced (mkcl (clear_dirty f) a m) b).
  { intros b Hb. unfold synced. cbn [sm fs]. rewrite Vm.
    destruct Hidx as [->|[Hp Hs]].
    - rewrite Z.eqb_refl. cbn [andb].
      destruct (existsb (Z.eqb b) (filter (dirty f) (zrange 0 (spacemap_space (total_zones f))))) eqn:X.
      + rewrite block_of_view by (auto; lia). rewrite T. reflexivity.
      + assert (Dn : dirty f b = false).
        { destruct (dirty f b) eqn:Db; [|reflexivity].
          assert (In b (filter (dirty f) (zrange 0 (spacemap_space (total_zones f))))).
          { apply filter_In. split; [apply in_zrange; rewrite T; lia|auto]. }
          apply existsb_eqb_in in H. congruence. }
        apply (S b Hb Dn).
    - assert (Hb' : sm c 0 b = Some (map (fun z => zod_v (view (clear_dirty f) z)) (zrange (b * ZPL) (Z.min ((b + 1) * ZPL) (v_zones v))))).
      { rewrite (Hs b Hb). f_equal. apply map_ext. intros z. f_equal. change (view (clear_dirty f) z) with (view f z).
        rewrite Vw. apply Hp. }
      destruct ((0 =? idx) && existsb (Z.eqb b) (filter (dirty f) (zrange 0 (spacemap_space (total_zones f))))).
      + rewrite block_of_view by (auto; lia). rewrite T. reflexivity.
      + exact Hb'. }
  split; [|split; [exact Vw|exact SA]].
  split; cbn [fs alloc_space sm]; auto.
  - now apply rep_set_dirty.
  - apply I.
Qed.

Lemma sync_inv c live cl tr : Inv c live cl tr ->
  exists c' o, step v c CSync = Some (c', RUnit, o) /\ Inv c' live true (tr ++ o) /\
    (forall z, view (fs c') z = pad_v (view (fs c) z)).
Proof.
  intros I. destruct (flush_spec c live cl tr 0 I) as (c1 & o1 & E1 & I1 & V1 & S1); [now left|].
  destruct (flush_spec c1 live true _ 1 I1) as (c2 & o2 & E2 & I2 & V2 & S2).
  { right. split; [|exact S1]. intros z. rewrite V1. now rewrite pad_idem. }
  exists c2, (o1 ++ o2). unfold step. rewrite E1. cbn [obind]. rewrite E2. cbn [obind].
  split; [reflexivity|]. split; [now rewrite app_assoc|]. intros z. rewrite V2, V1. apply pad_idem.
Qed.

(** ** Remounting *)

Lemma blocks_concat (g : Z -> zod) n : 0 <= n ->
  concat (map (fun b => map g (zrange (b * ZPL) (Z.min ((b + 1) * ZPL) n))) (zrange 0 (spacemap_space n)))
  = map g (zrange 0 n).
Proof.
  intros Hn.
  assert (X : forall k : nat, concat (map (fun b => map g (zrange (b * ZPL) (Z.min ((b + 1) * ZPL) n))) (zrange 0 (Z.of_nat k)))
     = map g (zrange 0 (Z.min (Z.of_nat k * ZPL) n))).
  { induction k as [|k IH].
    - cbn [Z.of_nat]. rewrite zrange_empty by lia. cbn [map concat]. rewrite zrange_empty by (unfold ZPL; lia). reflexivity.
    - rewrite zrange_snoc by lia. replace (Z.of_nat (S k) - 1) with (Z.of_nat k) by lia.
      rewrite map_app, concat_app, IH. cbn [map concat]. rewrite app_nil_r, <- map_app. f_equal.
      replace (Z.of_nat (S k)) with (Z.of_nat k + 1) by lia.
      destruct (Z.le_gt_cases n (Z.of_nat k * ZPL)).
      + rewrite (zrange_empty (Z.of_nat k * ZPL)) by (unfold ZPL in *; lia). rewrite app_nil_r. f_equal. unfold ZPL in *; lia.
      + rewrite (Z.min_l (Z.of_nat k * ZPL) n) by lia. symmetry. apply zrange_split. unfold ZPL in *; lia. }
  unfold spacemap_space. assert (0 <= (n + ZPL - 1) / ZPL) by (apply Z.div_pos; unfold ZPL; lia).
  specialize (X (Z.to_nat ((n + ZPL - 1) / ZPL))). rewrite Z2Nat.id in X by lia. rewrite X. do 2 f_equal.
  unfold ZPL. pose proof (Z.div_mod (n + 255 - 1) 255 ltac:(lia)). pose proof (Z.mod_pos_bound (n + 255 - 1) 255 ltac:(lia)). lia.
Qed.

(** Views that survive a round trip. *)
Definition good_v (z : Z) (w : zview) : Prop :=
  match w with
  | ZEmpty => True
  | ZDead s e => s = 0 /\ e = 1
  | ZOpen oz x => ostart oz = zstart z /\ total x = zend z - zstart z /\ 0 < oalloc oz <= total x /\ te x = TXG_MAX /\ ts x < TXG_MAX
  | ZClosed x => total x = zend z - zstart z /\ 0 < te x <= TXG_MAX /\ ts x < TXG_MAX
  end.

Lemma zone_inv_good live z w : zone_inv live z w -> good_v z w.
Proof. destruct w; cbn [zone_inv good_v]; intuition. Qed.

Definition reopen_v (z : Z) (w : zview) : list vop :=
  match w with ZOpen oz _ => [VReopen z (oalloc oz)] | _ => [] end.

Lemma changes_trans f f1 f2 z w1 w2 : changes f f1 z w1 -> changes f1 f2 z w2 -> changes f f2 z w2.
Proof.
  intros C1 C2. split; [apply C2| |apply C2| |].
  - rewrite (c_tot _ _ _ _ C2). apply C1.
  - intros j Hj. rewrite (c_off _ _ _ _ C2) by auto. now apply C1.
  - intros b. rewrite (c_dirty _ _ _ _ C2), (c_dirty _ _ _ _ C1). destruct (b =? z / ZPL); reflexivity.
Qed.

Lemma set_record f z x : rep f -> view f z <> ZEmpty -> (zm_mem z (empties f) = true -> 0 < te x) ->
  exists y, lget (zones f) z = Some y /\
  rep (set_zones (lset (zones f) z x) f) /\ 
  (forall j, j <> z -> view (set_zones (lset (zones f) z x) f) j = view f j) /\
  view (set_zones (lset (zones f) z x) f) z =
    match view f z with ZDead _ _ => ZDead (ts x) (te x) | ZOpen oz _ => ZOpen oz x | ZClosed _ => ZClosed x | ZEmpty => ZEmpty end.
Proof.
  intros R V Ht. pose proof (view_range f z V) as Hz. destruct (lget_some (zones f) z Hz) as [y E].
  exists y. split; [exact E|]. split; [|split].
  - apply rep_set_zone; auto. destruct (zm_mem z (empties f)); [right; specialize (Ht eq_refl); lia|now left].
  - intros j Hj. rewrite view_set_zone by auto. destruct (Z.eqb_spec j z); [contradiction|reflexivity].
  - rewrite view_set_zone, Z.eqb_refl by auto.
    destruct (view f z) eqn:Vz; [contradiction| | |].
    + apply view_dead_inv in Vz. destruct Vz as (x0 & _ & M & _). rewrite M in *. specialize (Ht eq_refl).
      destruct (Z.eqb_spec (te x) 0); [lia|reflexivity].
    + apply view_open_inv in Vz. destruct Vz as (_ & M & G0). now rewrite M, G0.
    + apply view_closed_inv in Vz. destruct Vz as (_ & M & G0). now rewrite M, G0.
Qed.

Lemma deser_one_spec z w f : 0 <= z < v_zones v -> good_v z w -> rep f -> total_zones f = v_zones v ->
  view f z = ZEmpty -> one_open f -> ((exists oz x, w = ZOpen oz x) -> forall j oz x, view f j <> ZOpen oz x) ->
  exists f', deser_one v z (zod_v w) f = Some (f', reopen_v z w) /\ rep f' /\ total_zones f' = v_zones v /\
    view f' z = w /\ (forall j, j <> z -> view f' j = view f j).
Proof.
  intros Hz Gd R T V O HO. unfold deser_one.
  pose proof (g_size v G z Hz) as Hsz. fold (zstart z) (zend z) in *. unfold U32MAX in Hsz.
  assert (Fin : forall txg e0, txg < TXG_MAX -> exists f1 f2,
    open_zone z (zstart z) (zend z) 0 txg f = Some (f1, OzOk None) /\
    finish_zone z e0 f1 = Some (f2, zend z - zstart z) /\
    changes f f2 z (ZClosed (mkzone (0 + (zend z - zstart z)) (zend z - zstart z) txg (e0 + 1)))).
  { intros txg e0 Ht. destruct (open_zone_spec f z (zstart z) (zend z) 0 txg R ltac:(lia) V ltac:(lia) ltac:(lia) ltac:(lia)) as (f1 & E1 & C1).
    destruct (finish_spec f1 z e0 _ _ (c_rep _ _ _ _ C1) (c_at _ _ _ _ C1)) as (f2 & E2 & C2); cbn [oalloc total]; try lia.
    cbn [oalloc total freed ts] in *. rewrite Z.sub_0_r in *.
    exists f1, f2. split; [exact E1|]. split; [exact E2|]. eapply changes_trans; eauto. }
  destruct w as [|s e|oz x|x]; cbn [zod_v zo_te zo_alloc zo_ts zo_freed good_v reopen_v] in *.
  - cbn [Z.gtb Z.compare]. exists f. split; [reflexivity|]. split; [exact R|]. auto.
  - destruct Gd as [-> ->]. cbn [Z.gtb Z.compare].
    destruct (Fin 0 (1 - 1)) as (f1 & f2 & E1 & E2 & C2); [unfold TXG_MAX; lia|].
    rewrite E1. cbn [obind]. change (0 =? U32MAX) with false. cbn [Z.gtb Z.compare]. rewrite E2. cbn [obind].
    destruct (kill_spec f2 z _ (c_rep _ _ _ _ C2) (c_at _ _ _ _ C2)) as (f3 & E3 & C3).
    rewrite E3. cbn [obind].
    pose proof (changes_trans _ _ _ _ _ _ C2 C3) as C.
    assert (A3 : view f3 z = ZDead 0 1) by apply C3.
    destruct (lget_some (zones f3) z) as [y Ey]; [apply view_range; congruence|]. rewrite Ey. cbn [obind].
    destruct (set_record f3 z (mkzone 0 (total y) 0 1) (c_rep _ _ _ _ C3)) as (y' & Ey' & Rn & Vn & Vz); [congruence|cbn; lia|].
    eexists. split; [reflexivity|]. split; [exact Rn|]. split; [cbn [set_zones total_zones]; rewrite (c_tot _ _ _ _ C); auto|].
    split; [rewrite Vz, A3; reflexivity|]. intros j Hj. rewrite Vn by auto. now apply C.
  - destruct Gd as (B1 & B2 & B3 & B4 & B5). rewrite B4. change (TXG_MAX >? 0) with true.
    destruct (open_zone_spec f z (zstart z) (zend z) 0 (ts x) R ltac:(lia) V ltac:(lia) ltac:(lia) ltac:(lia)) as (f1 & E1 & C1).
    cbv iota. fold (zstart z) (zend z). rewrite E1. cbn [obind].
    assert (Ne : (oalloc oz =? U32MAX) = false) by (unfold U32MAX; lia). rewrite Ne.
    assert (Ne2 : (oalloc oz >? 0) = true) by lia. rewrite Ne2.
    assert (O1 : one_open f1).
    { eapply one_open_changes; [exact O|exact C1|]. intros _ j oz' x' _. apply HO. eauto. }
    pose proof (try_allocate_ok f1 (oalloc oz) z _ _ (c_rep _ _ _ _ C1) O1 (c_at _ _ _ _ C1)) as TA.
    cbn [oalloc total ostart] in TA. destruct TA as (f2 & E2 & C2); try lia.
    rewrite E2. cbn [obind]. unfold oassert. rewrite Z.eqb_refl. cbn [obind].
    destruct (lget_some (zones f2) z) as [y Ey]; [apply view_range; rewrite (c_at _ _ _ _ C2); discriminate|].
    rewrite Ey. cbn [obind].
    assert (Ty : total y = zend z - zstart z).
    { pose proof (view_open_inv _ _ _ _ (c_at _ _ _ _ C2)) as (Ez & _). rewrite Ey in Ez. injection Ez as ->. reflexivity. }
    destruct (set_record f2 z (mkzone (freed x) (total y) (ts x) TXG_MAX) (c_rep _ _ _ _ C2)) as (y' & Ey' & Rn & Vn & Vz).
    { rewrite (c_at _ _ _ _ C2). discriminate. }
    { cbn. unfold TXG_MAX. lia. }
    pose proof (changes_trans _ _ _ _ _ _ C1 C2) as C.
    eexists. split; [reflexivity|]. split; [exact Rn|]. split; [cbn [set_zones total_zones]; rewrite (c_tot _ _ _ _ C); auto|].
    split.
    + rewrite Vz, (c_at _ _ _ _ C2). destruct oz as [os oa], x as [xf xt xs xe]. cbn [ostart oalloc freed total ts te] in *. subst. rewrite Ty. reflexivity.
    + intros j Hj. rewrite Vn by auto. now apply C.
  - destruct Gd as (B1 & B2 & B3).
    assert (Ne : (te x >? 0) = true) by lia. rewrite Ne.
    destruct (Fin (ts x) (te x - 1) B3) as (f1 & f2 & E1 & E2 & C2).
    fold (zstart z) (zend z). rewrite E1. cbn [obind]. rewrite Z.eqb_refl. rewrite E2. cbn [obind].
    destruct (lget_some (zones f2) z) as [y Ey]; [apply view_range; rewrite (c_at _ _ _ _ C2); discriminate|].
    rewrite Ey. cbn [obind].
    assert (Ty : total y = zend z - zstart z).
    { pose proof (view_closed_inv _ _ _ (c_at _ _ _ _ C2)) as (Ez & _). rewrite Ey in Ez. injection Ez as ->. reflexivity. }
    destruct (set_record f2 z (mkzone (freed x) (total y) (ts x) (te x)) (c_rep _ _ _ _ C2)) as (y' & Ey' & Rn & Vn & Vz).
    { rewrite (c_at _ _ _ _ C2). discriminate. }
    { cbn. lia. }
    eexists. split; [reflexivity|]. split; [exact Rn|]. split; [cbn [set_zones total_zones]; rewrite (c_tot _ _ _ _ C2); auto|].
    split.
    + rewrite Vz, (c_at _ _ _ _ C2). destruct x as [xf xt xs xe]. cbn [freed total ts te] in *. subst. rewrite Ty. reflexivity.
    + intros j Hj. rewrite Vn by auto. now apply C2.
Qed.

(** At most one of the views [w] is open. *)
Definition one_open_w (w : Z -> zview) : Prop :=
  forall z z' oz x oz' x', w z = ZOpen oz x -> w z' = ZOpen oz' x' -> z = z'.

Lemma deser_list_spec (w : Z -> zview) : 
  (forall z, 0 <= z < v_zones v -> good_v z (w z)) -> one_open_w w ->
  forall k z f, 0 <= z -> z + Z.of_nat k = v_zones v -> rep f -> total_zones f = v_zones v ->
  (forall j, view f j = if (0 <=? j) && (j <? z) then w j else ZEmpty) ->
  exists f', deser_list v z (map (fun z => zod_v (w z)) (zseq z k)) f =
               Some (f', concat (map (fun z => reopen_v z (w z)) (zseq z k))) /\
    rep f' /\ total_zones f' = v_zones v /\
    (forall j, view f' j = if (0 <=? j) && (j <? v_zones v) then w j else ZEmpty).
Proof.
  intros Gd O. induction k as [|k IH]; intros z f Hz Hk R T V.
  - cbn [zseq map deser_list concat]. exists f. split; [reflexivity|]. split; [exact R|]. split; [exact T|].
    intros j. rewrite V. replace z with (v_zones v) by lia. reflexivity.
  - cbn [zseq map deser_list concat].
    destruct (deser_one_spec z (w z) f) as (f1 & E1 & R1 & T1 & A1 & B1); auto; try lia.
    + apply Gd. lia.
    + rewrite V. destruct (Z.leb_spec 0 z); [|lia]. destruct (Z.ltb_spec z z); [lia|reflexivity].
    + intros z1 z2 oz x oz' x'. rewrite !V. intros X Y.
      destruct ((0 <=? z1) && (z1 <? z)); [|discriminate]. destruct ((0 <=? z2) && (z2 <? z)); [|discriminate]. eapply O; eauto.
    + intros (oz & x & Ew) j oz' x'. rewrite V. intros X.
      destruct ((0 <=? j) && (j <? z)) eqn:Ej; [|discriminate]. assert (j = z) by (eapply O; eauto). lia.
    + rewrite E1. cbn [obind].
      destruct (IH (z + 1) f1) as (f2 & E2 & R2 & T2 & V2); auto; try lia.
      * intros j. destruct (Z.eq_dec j z) as [->|N].
        -- rewrite A1. destruct (Z.leb_spec 0 z); [|lia]. destruct (Z.ltb_spec z (z + 1)); [reflexivity|lia].
        -- rewrite B1, V by auto. destruct (Z.leb_spec 0 j); [|reflexivity]. cbn [andb].
           destruct (Z.ltb_spec j z), (Z.ltb_spec j (z + 1)); try reflexivity; lia.
      * rewrite E2. cbn [obind]. exists f2. split; [reflexivity|]. auto.
Qed.

Lemma dev_reopen w l : forall d, (forall z, d z = dz_v z (w z)) ->
  dev_run v d (concat (map (fun z => reopen_v z (w z)) l)) = Some d.
Proof.
  induction l as [|z l IH]; intros d H; [reflexivity|].
  cbn [map concat]. rewrite dev_run_app.
  assert (E : dev_run v d (reopen_v z (w z)) = Some d).
  { unfold reopen_v. pose proof (H z) as Hz. destruct (w z) eqn:W; try reflexivity.
    cbn [dev_run dev_step]. rewrite Hz. cbn [dz_v]. fold (zstart z). rewrite Z.eqb_refl. reflexivity. }
  rewrite E. cbn [obind]. now apply IH.
Qed.

Lemma rep_new : rep (fsm_new (v_zones v)).
Proof.
  pose proof (g_zones v G). split; cbn [fsm_new empties opens zones total_zones]; try easy.
  - apply zm_ok_nil.
  - apply zm_ok_nil.
Qed.

Lemma view_new z : view (fsm_new (v_zones v)) z = ZEmpty.
Proof. apply view_out. cbn [fsm_new zones]. change (zlen (@nil zone)) with 0. lia. Qed.

Lemma reopen_spec c live tr : Inv c live true tr ->
  exists c' o, reopen v c = Some (c', o) /\ Inv c' live true (tr ++ o) /\
    (forall z, view (fs c') z = view (fs c) z) /\ alloc_space c' = alloc_space c.
Proof.
  intros I. pose proof (i_rep _ _ _ _ I) as R. pose proof (i_tot _ _ _ _ I) as T. pose proof (g_zones v G) as Hn.
  set (w := view (fs c)).
  assert (Wout : forall z, ~ (0 <= z < v_zones v) -> w z = ZEmpty).
  { intros z Hz. apply view_out. pose proof (r_len _ R). lia. }
  assert (Em : omap (sm c 0) (zrange 0 (spacemap_space (v_zones v))) =
    Some (map (fun b => map (fun z => zod_v (w z)) (zrange (b * ZPL) (Z.min ((b + 1) * ZPL) (v_zones v)))) (zrange 0 (spacemap_space (v_zones v))))).
  { apply omap_ok. intros b Hb. apply in_zrange in Hb. apply (i_sync _ _ _ _ I); auto. now apply (i_clean _ _ _ _ I). }
  unfold reopen, deserialize. rewrite Em. cbn [obind]. rewrite blocks_concat by auto.
  assert (Hlen : zlen (map (fun z => zod_v (w z)) (zrange 0 (v_zones v))) = v_zones v).
  { unfold zlen. rewrite map_length, zrange_length. lia. }
  rewrite Hlen. unfold oassert. rewrite Z.eqb_refl.
  destruct (deser_list_spec w) with (k := Z.to_nat (v_zones v)) (z := 0) (f := fsm_new (v_zones v)) as (f' & E & R' & T' & V'); try lia.
  - intros z Hz. eapply zone_inv_good. now apply (i_zone _ _ _ _ I).
  - exact (i_one _ _ _ _ I).
  - exact rep_new.
  - reflexivity.
  - intros j. rewrite view_new. destruct (Z.leb_spec 0 j), (Z.ltb_spec j 0); try reflexivity; lia.
  - unfold zrange. rewrite Z.sub_0_r. rewrite E. cbn [obind].
    assert (Vw : forall j, view f' j = w j).
    { intros j. rewrite V'. destruct ((0 <=? j) && (j <? v_zones v)) eqn:Ej; [reflexivity|]. rewrite Wout by lia. reflexivity. }
    assert (Rc : rep (clear_dirty f')) by now apply rep_set_dirty.
    rewrite allocated_total_view by auto. cbn [obind].
    change (total_zones (clear_dirty f')) with (total_zones f'). rewrite T'.
    assert (Sum : zsum 0 (v_zones v) (fun z => alloc_v (view (clear_dirty f') z)) = alloc_space c).
    { rewrite (i_alloc _ _ _ _ I). apply zsum_ext. intros z _. change (view (clear_dirty f') z) with (view f' z). now rewrite Vw. }
    eexists _, _. split; [reflexivity|]. cbn [fs alloc_space]. split; [|split; [exact Vw|exact Sum]].
    pose proof I as I0.
    destruct I. split; cbn [fs alloc_space sm]; auto.
    + intros z z' oz x oz' x'. change (view (clear_dirty f')) with (view f'). rewrite !Vw. apply i_one0.
    + intros z Hz. change (view (clear_dirty f')) with (view f'). rewrite Vw. auto.
    + intros b Hb _. specialize (i_sync0 b Hb (i_clean0 eq_refl b Hb)). unfold synced in *. cbn [sm fs].
      rewrite i_sync0. f_equal. apply map_ext. intros z. change (view (clear_dirty f')) with (view f'). now rewrite Vw.
    + destruct i_dev0 as (d & Hd & Hv). exists d. split.
      * rewrite dev_run_app, Hd. cbn [obind]. now apply dev_reopen.
      * intros z. change (view (clear_dirty f')) with (view f'). rewrite Vw. apply Hv.
Qed.

(** ** The invariant holds along every history *)

Lemma inv_init : Inv (cluster_create v) [] false [].
Proof.
  pose proof (g_zones v G). split; cbn [cluster_create fs alloc_space sm].
  - exact rep_new.
  - reflexivity.
  - intros z z' oz x oz' x'. rewrite view_new. discriminate.
  - intros z Hz. rewrite view_new. reflexivity.
  - symmetry. apply zsum_zero. intros z Hz. now rewrite view_new.
  - split; [easy|constructor].
  - intros b Hb. cbn [fsm_new dirty]. intros D. lia.
  - discriminate.
  - exists (fun _ => DEmpty). split; [reflexivity|]. intros z. now rewrite view_new.
Qed.

Lemma step_inv c live cl tr op : Inv c live cl tr -> legal live cl op ->
  exists c' r o, step v c op = Some (c', r, o) /\ Inv c' (live_next live op r) (clean_next op) (tr ++ o).
Proof.
  intros I L. destruct op as [space txg|lba len| | |]; cbn [legal] in L.
  - destruct L as [L1 L2]. destruct (write_inv c live cl tr space txg I L1 L2) as (c' & r & o & E & I' & _).
    exists c', (RWrite r), o. cbn [step]. rewrite E. split; [reflexivity|exact I'].
  - destruct (free_inv c live cl tr lba len I L) as (c' & E & I').
    exists c', RUnit, []. cbn [step]. rewrite E. split; [reflexivity|exact I'].
  - pose proof (advance_inv c live cl tr I) as (I' & _). cbn [step]. destruct (advance c) as [c' o].
    exists c', RUnit, o. split; [reflexivity|exact I'].
  - destruct (sync_inv c live cl tr I) as (c' & o & E & I' & _). exists c', RUnit, o. auto.
  - subst cl. destruct (reopen_spec c live tr I) as (c' & o & E & I' & _).
    exists c', RUnit, o. cbn [step]. rewrite E. split; [reflexivity|exact I'].
Qed.

Lemma reach_inv c live cl tr : reach v c live cl tr -> Inv c live cl tr.
Proof.
  induction 1 as [|c live cl tr op c' r o _ IH L E].
  - apply inv_init.
  - destruct (step_inv c live cl tr op IH L) as (c1 & r1 & o1 & E1 & I1). rewrite E in E1. injection E1 as <- <- <-. exact I1.
Qed.

End Inv.
