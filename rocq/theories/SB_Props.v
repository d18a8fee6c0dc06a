(** C08: appends through the stripe buffers. *)
From Verif Require Import Common SG_Model SG_Props SB_Model SB_Proofs.

(** ** Specification: each zone is a growing byte string. *)

Section Spec.
Context (sl : Z) (zs ze : Z -> Z). (* LBAs per stripe; first and end LBA of each zone *)
Context (g : Z -> Z). (* what the array contained before *)

Definition geometry : Prop :=
  0 < sl /\ (forall z, zs z mod sl = 0 /\ ze z mod sl = 0 /\ 0 <= zs z <= ze z) /\
  (forall z1 z2, z1 <> z2 -> ze z1 <= zs z2 \/ ze z2 <= zs z1).

Record spec := Spec { log : Z -> list Z; opened : Z -> bool }.

Inductive op :=
| Open (zone already_allocated : Z)
| Write (zone lba : Z) (buf : list Z)
| Flush (zone : Z)
| Finish (zone : Z).

Definition upd {A} (h : Z -> A) (k : Z) (v : A) : Z -> A := fun x => if x =? k then v else h x.

(** Zero bytes needed to extend [n] bytes to a multiple of [unit]. *)
Definition fill_to (unit n : Z) : Z := (- n) mod unit.
Definition pad_to (unit : Z) (l : list Z) : list Z := l ++ zrepeat 0 (fill_to unit (zlen l)).

(** What the callers (cluster.rs) respect. *)
Definition legal (s : spec) (o : op) : Prop :=
  match o with
  | Open z a => opened s z = false /\ 0 <= a /\ a mod sl = 0 /\ a * 4096 <= zlen (log s z)
  | Write z lba buf =>
      opened s z = true /\ 0 < zlen buf /\
      lba * 4096 = zs z * 4096 + zlen (log s z) /\
      zs z * 4096 + zlen (log s z) + zlen buf <= ze z * 4096
  | Flush z => True
  | Finish z => opened s z = true
  end.

Definition spec_step (s : spec) (o : op) : spec :=
  match o with
  | Open z a => Spec (upd (log s) z (ztake (a * 4096) (log s z))) (upd (opened s) z true)
  | Write z lba buf => Spec (upd (log s) z (pad_to 4096 (log s z ++ buf))) (opened s)
  | Flush z => if opened s z then Spec (upd (log s) z (pad_to (sl * 4096) (log s z))) (opened s) else s
  | Finish z => Spec (upd (log s) z (pad_to (sl * 4096) (log s z))) (upd (opened s) z false)
  end.

Fixpoint legal_run (s : spec) (ops : list op) : Prop :=
  match ops with
  | [] => True
  | o :: ops' => legal s o /\ legal_run (spec_step s o) ops'
  end.

Definition spec_run (s : spec) (ops : list op) : spec := fold_left spec_step ops s.

(** ** The model's steps *)
Definition step (r : raid) (o : op) : option raid :=
  match o with
  | Open z a => open_zone sl (zs z) r z a
  | Write z lba buf => write_at sl r buf z lba
  | Flush z => option_map snd (flush_zone sl r z)
  | Finish z => finish_zone sl r z
  end.

Fixpoint run (r : raid) (ops : list op) : option raid :=
  match ops with
  | [] => Some r
  | o :: ops' => match step r o with None => None | Some r' => run r' ops' end
  end.

(** ** Invariant *)
Definition on_disk (r : raid) (s : spec) (z n : Z) : Prop :=
  forall i, 0 <= i < n -> st_get g (rd_store r) (zs z * B + i) = nth (Z.to_nat i) (log s z) 0.

Definition zone_inv (r : raid) (s : spec) (z : Z) : Prop :=
  zs z * B + zlen (log s z) <= ze z * B /\
  match sbs_get (rd_sbs r) z with
  | Some sb => opened s z = true /\
      exists n c, log s z = ztake n (log s z) ++ c /\ zlen c < sl * B /\
        sb_holds sb (zs z + n / B) c /\ 0 <= n /\ n mod (sl * B) = 0 /\ n + zlen c = zlen (log s z) /\
        on_disk r s z n
  | None => opened s z = false /\ on_disk r s z (zlen (log s z)) /\ zlen (log s z) mod (sl * B) = 0
  end.

Definition inv (r : raid) (s : spec) : Prop :=
  NoDup (map fst (rd_sbs r)) /\ (forall z, zone_inv r s z) /\ Forall (whole sl) (rd_store r).

End Spec.

Lemma mod_0_mult a b : 0 < b -> a mod b = 0 -> exists q, a = q * b.
Proof. intros Hb H. exists (a / b). pose proof (Z.div_mod a b ltac:(lia)). lia. Qed.

Section Proofs.
Context (sl : Z) (zs ze : Z -> Z) (G : geometry sl zs ze) (g : Z -> Z).

Lemma slB : 0 < sl * B.
Proof. destruct G as [H _]. pose proof Bpos. apply Z.mul_pos_pos; lia. Qed.

Lemma upd_same {A} (h : Z -> A) k v : upd h k v k = v.
Proof. unfold upd. now rewrite Z.eqb_refl. Qed.
Lemma upd_other {A} (h : Z -> A) k v x : x <> k -> upd h k v x = h x.
Proof. intros H. unfold upd. destruct (Z.eqb_spec x k); [contradiction|reflexivity]. Qed.

Lemma sbs_set_keys l z s : map fst (sbs_set l z s) = map fst l.
Proof.
  induction l as [|[k v] l IH]; [reflexivity|]. cbn [sbs_set]. destruct (Z.eqb_spec z k); cbn; congruence.
Qed.

Lemma sbs_get_none_notin l z : sbs_get l z = None <-> ~ In z (map fst l).
Proof.
  induction l as [|[k v] l IH]; cbn [sbs_get map In fst]; [tauto|].
  destruct (Z.eqb_spec z k).
  - subst. split; [discriminate|]. intros H. exfalso. auto.
  - rewrite IH. firstorder congruence.
Qed.

(** Writing stripes inside one zone leaves other zones' bytes alone. *)
Lemma st_frame r s z z' d' l bs n :
  zlen (log s z') >= n -> zs z' * B + zlen (log s z') <= ze z' * B -> zs z' <= ze z' ->
  (ze z <= zs z' \/ ze z' <= zs z) ->
  zs z * B <= l * B -> l * B + zlen bs <= ze z * B ->
  (forall i, st_get g d' i = st_get g (wr (rd_store r) l bs) i) ->
  on_disk zs g r s z' n -> on_disk zs g (RD (rd_sbs r) d') s z' n.
Proof.
  intros Hn Hz Hz' Hd Hl1 Hl2 Hst Hod i Hi. cbn [rd_store]. rewrite Hst. unfold wr; cbn [st_get].
  unfold st_write.
  assert (E : (l * B <=? zs z' * B + i) && (zs z' * B + i <? l * B + zlen bs) = false).
  { destruct (Z.leb_spec (l * B) (zs z' * B + i)), (Z.ltb_spec (zs z' * B + i) (l * B + zlen bs)); cbn [andb]; try reflexivity.
    exfalso. destruct Hd as [Hd|Hd]; pose proof (Z.mul_le_mono_nonneg_r _ _ B ltac:(discriminate) Hd); lia. }
  rewrite E. apply Hod. exact Hi.
Qed.

Lemma nth_ztake {A} (l : list A) n i d : 0 <= i < n -> nth (Z.to_nat i) (ztake n l) d = nth (Z.to_nat i) l d.
Proof.
  intros H. rewrite <- (ztake_drop n l) at 2. destruct (Z.lt_ge_cases i (zlen l)).
  - rewrite app_nth1; [reflexivity|]. assert (i < zlen (ztake n l)); [|unfold zlen in *; lia].
    rewrite zlen_take_min; lia.
  - rewrite !nth_overflow; [reflexivity| |].
    + rewrite ztake_drop. unfold zlen in *. lia.
    + assert (zlen (ztake n l) <= i); [|unfold zlen in *; lia]. rewrite zlen_take_min; lia.
Qed.

Lemma on_disk_ext r s r' s' z n : (forall i, st_get g (rd_store r) i = st_get g (rd_store r') i) ->
  (forall i, 0 <= i < n -> nth (Z.to_nat i) (log s z) 0 = nth (Z.to_nat i) (log s' z) 0) ->
  on_disk zs g r s z n -> on_disk zs g r' s' z n.
Proof. intros H1 H2 H i Hi. rewrite <- H1, <- H2 by exact Hi. apply H. exact Hi. Qed.

Lemma pad_to_B l : pad_to 4096 l = padded l.
Proof. reflexivity. Qed.

(** After a write of [bs] at the old end of stripes, the first n + |bs| bytes are on disk *)
Lemma on_disk_extend r s s' z d' n bs :
  0 <= n -> n mod B = 0 ->
  (forall i, st_get g d' i = st_get g (wr (rd_store r) (zs z + n / B) bs) i) ->
  (forall i, 0 <= i < n -> nth (Z.to_nat i) (log s z) 0 = nth (Z.to_nat i) (log s' z) 0) ->
  (forall i, n <= i < n + zlen bs -> nth (Z.to_nat i) (log s' z) 0 = nth (Z.to_nat (i - n)) bs 0) ->
  on_disk zs g r s z n -> forall sbs, on_disk zs g (RD sbs d') s' z (n + zlen bs).
Proof.
  intros Hn Hm Hst H1 H2 Hod sbs i Hi. cbn [rd_store]. rewrite Hst. unfold wr; cbn [st_get]. unfold st_write.
  pose proof (Z.div_mod n B ltac:(pose proof Bpos; lia)) as Hdm.
  assert (Ea : (zs z + n / B) * B = zs z * B + n) by lia. rewrite Ea.
  destruct (Z.leb_spec (zs z * B + n) (zs z * B + i)), (Z.ltb_spec (zs z * B + i) (zs z * B + n + zlen bs)); cbn [andb]; try lia.
  - rewrite H2 by lia. f_equal. lia.
  - rewrite <- H1 by lia. apply Hod. lia.
Qed.

Lemma fill_to_bound u n : 0 < u -> 0 <= fill_to u n < u.
Proof. intros. apply Z.mod_pos_bound. lia. Qed.

Lemma ze_room z n : n mod B = 0 -> zs z * B + n <= ze z * B -> n mod (sl * B) = 0 ->
  forall m, 0 <= m -> zs z * B + n + m <= ze z * B -> m <= sl * B ->
  0 < m -> zs z * B + n + sl * B <= ze z * B.
Proof.
  intros H1 H2 H3 m Hm H4 H5 H6. destruct G as (Hsl & Hz & _). destruct (Hz z) as (Hs & He & _).
  pose proof Bpos. pose proof slB.
  destruct (mod_0_mult _ _ Hsl Hs) as [a Ha]. destruct (mod_0_mult _ _ Hsl He) as [b Hb].
  destruct (mod_0_mult _ _ slB H3) as [q Hq].
  assert (E : zs z * B + n = (a + q) * (sl * B)) by lia.
  assert (E2 : ze z * B = b * (sl * B)) by lia.
  rewrite E, E2 in *. assert (a + q < b).
  { apply (Z.mul_lt_mono_pos_r (sl * B)); lia. }
  assert ((a + q + 1) * (sl * B) <= b * (sl * B)) by (apply Z.mul_le_mono_nonneg_r; lia). lia.
Qed.

Lemma mod_slB_B n : n mod (sl * B) = 0 -> n mod B = 0.
Proof.
  intros H. destruct (mod_0_mult _ _ slB H) as [q Hq]. rewrite Hq, Z.mul_assoc. apply mult_mod.
Qed.

Lemma mod_fill u n : 0 < u -> (n + fill_to u n) mod u = 0.
Proof.
  intros H. unfold fill_to. rewrite Z.add_mod_idemp_r by lia. rewrite Z.add_opp_diag_r. reflexivity.
Qed.

Lemma lba_nonneg z n : 0 <= n -> 0 <= zs z + n / B.
Proof. intros H. destruct G as (_ & Hz & _). pose proof (Hz z). pose proof (Z.div_pos n B H Bpos). lia. Qed.
Lemma lba_aligned z n : n mod (sl * B) = 0 -> (zs z + n / B) mod sl = 0.
Proof.
  intros H. destruct G as (Hsl & Hz & _). destruct (Hz z) as (Hs & _).
  destruct (mod_0_mult _ _ slB H) as [q Hq]. rewrite Hq, Z.mul_assoc, mult_div, Z.mod_add by lia. exact Hs.
Qed.

Lemma fill_to_add_mult u a q : 0 < u -> fill_to u (a + q * u) = fill_to u a.
Proof. intros H. unfold fill_to. rewrite Z.opp_add_distr, <- Z.mul_opp_l, Z.mod_add by lia. reflexivity. Qed.

Lemma nth_app_l {A} (x y : list A) d i : 0 <= i < zlen x -> nth (Z.to_nat i) (x ++ y) d = nth (Z.to_nat i) x d.
Proof. intros H. apply app_nth1. unfold zlen in *. lia. Qed.
Lemma nth_app_r {A} (x y : list A) d i : zlen x <= i -> nth (Z.to_nat i) (x ++ y) d = nth (Z.to_nat (i - zlen x)) y d.
Proof. intros H. unfold zlen in *. rewrite app_nth2 by lia. f_equal. lia. Qed.

(** One zone's state after [full] more bytes of [c ++ extra] went to disk. *)
Lemma zone_advance r s s' z sb' d' n c extra full sbs :
  sbs_get sbs z = Some sb' -> opened s' z = true ->
  log s z = ztake n (log s z) ++ c -> n + zlen c = zlen (log s z) ->
  log s' z = log s z ++ extra ->
  0 <= n -> n mod (sl * B) = 0 -> 0 <= full <= zlen (c ++ extra) -> full mod (sl * B) = 0 ->
  zlen (c ++ extra) < full + sl * B ->
  zs z * B + zlen (log s' z) <= ze z * B ->
  sb_holds sb' (zs z + n / B + full / B) (zdrop full (c ++ extra)) ->
  (forall i, st_get g d' i = st_get g (wr (rd_store r) (zs z + n / B) (ztake full (c ++ extra))) i) ->
  on_disk zs g r s z n ->
  zone_inv sl zs ze g (RD sbs d') s' z.
Proof.
  intros Hget Hop Hlog Hlen Hlog' Hn Hnm Hf Hfm Hlt Hze Hh Hst Hod. pose proof (zlen_nonneg c) as Hcn0.
  pose proof slB as HS. pose proof Bpos as HB.
  assert (Htk : zlen (ztake n (log s z)) = n) by (rewrite zlen_take; [lia|pose proof (zlen_nonneg c); lia]).
  assert (El : log s' z = ztake n (log s z) ++ ztake full (c ++ extra) ++ zdrop full (c ++ extra)).
  { rewrite Hlog', Hlog at 1. rewrite <- app_assoc, ztake_drop. reflexivity. }
  assert (Hfl : zlen (ztake full (c ++ extra)) = full) by (rewrite zlen_take; lia).
  split; [exact Hze|]. cbn [rd_sbs]. rewrite Hget. split; [exact Hop|].
  exists (n + full), (zdrop full (c ++ extra)).
  assert (Edl : zlen (zdrop full (c ++ extra)) = zlen (c ++ extra) - full) by (rewrite zlen_drop; lia).
  split; [|split; [|split; [|split; [|split; [|split]]]]].
  - rewrite El at 2. rewrite app_assoc, ztake_app_le by (rewrite zlen_app; lia).
    rewrite (ztake_all (n + full)) by (rewrite zlen_app; lia). rewrite <- app_assoc. exact El.
  - lia.
  - replace ((n + full) / B) with (n / B + full / B); [rewrite Z.add_assoc; exact Hh|].
    destruct (mod_0_mult _ _ slB Hnm) as [q1 E1]. destruct (mod_0_mult _ _ slB Hfm) as [q2 E2].
    rewrite E1, E2. replace (q1 * (sl * B) + q2 * (sl * B)) with ((q1 * sl + q2 * sl) * B) by lia.
    rewrite !Z.mul_assoc, !mult_div. reflexivity.
  - lia.
  - rewrite Z.add_mod by lia. rewrite Hnm, Hfm. reflexivity.
  - rewrite Edl, Hlog', !zlen_app. lia.
  - rewrite <- Hfl at 1. eapply (on_disk_extend r s s' z d' n (ztake full (c ++ extra))); auto.
    + apply mod_slB_B. exact Hnm.
    + intros i Hi. rewrite Hlog', nth_app_l by lia. reflexivity.
    + intros i Hi. rewrite El, nth_app_r by lia. rewrite Htk. rewrite nth_app_l by lia. reflexivity.
Qed.

(** Zones other than the one operated on. *)
Lemma zone_frame r s s' z z' sbs d' l bs :
  z' <> z -> sbs_get sbs z' = sbs_get (rd_sbs r) z' -> log s' z' = log s z' -> opened s' z' = opened s z' ->
  zs z * B <= l * B -> l * B + zlen bs <= ze z * B ->
  (forall i, st_get g d' i = st_get g (wr (rd_store r) l bs) i) ->
  zone_inv sl zs ze g r s z' -> zone_inv sl zs ze g (RD sbs d') s' z'.
Proof.
  intros Hne Hget Hlog Hop Hl1 Hl2 Hst (Hze & Hm). destruct G as (Hsl & Hz & Hdis).
  assert (Hd : ze z <= zs z' \/ ze z' <= zs z) by (apply Hdis; congruence).
  destruct (Hz z') as (_ & _ & Hzz).
  split; [rewrite Hlog; exact Hze|]. cbn [rd_sbs]. rewrite Hget.
  assert (F : forall n, zlen (log s z') >= n -> on_disk zs g r s z' n -> on_disk zs g (RD sbs d') s' z' n).
  { intros n Hn Hod i Hi. rewrite Hlog. cbn [rd_store].
    exact (st_frame r s z z' d' l bs n Hn Hze (proj2 Hzz) Hd Hl1 Hl2 Hst Hod i Hi). }
  destruct (sbs_get (rd_sbs r) z') as [sb|].
  - destruct Hm as (Ho & n & c & E1 & E2 & E3 & E4 & E5 & E6 & E7).
    split; [congruence|]. exists n, c. rewrite Hlog.
    pose proof (zlen_nonneg c) as Hcn.
    assert (Hge : zlen (log s z') >= n) by (rewrite <- E6; clear -Hcn; lia).
    split; [exact E1|]. split; [exact E2|]. split; [exact E3|]. split; [exact E4|]. split; [exact E5|].
    split; [exact E6|]. apply F; [exact Hge|exact E7].
  - destruct Hm as (Ho & Hod & Hmm). rewrite Hlog. split; [congruence|]. split; [|exact Hmm].
    apply F; [lia|exact Hod].
Qed.

(** [upd]ing only zone z *)
Lemma step_inv r s o : inv sl zs ze g r s -> legal sl zs ze s o ->
  exists r', step sl zs r o = Some r' /\ inv sl zs ze g r' (spec_step sl s o).
Proof.
  intros (Hnd & Hzi & Hwh) Hleg. pose proof slB as HS. pose proof Bpos as HB.
  pose proof G as (Hsl & Hz & Hdis).
  assert (EB : B = 4096) by reflexivity.
  (* flushing an open, non-empty zone *)
  assert (FL : forall z, opened s z = true ->
     exists pl sbs' d', flush_zone sl r z = Some (pl, RD sbs' d') /\
       map fst sbs' = map fst (rd_sbs r) /\
       (forall z', z' <> z -> sbs_get sbs' z' = sbs_get (rd_sbs r) z') /\
       Forall (whole sl) d' /\
       let s' := Spec (upd (log s) z (pad_to (sl * 4096) (log s z))) (opened s) in
       (forall z', zone_inv sl zs ze g (RD sbs' d') s' z') /\
       on_disk zs g (RD sbs' d') s' z (zlen (pad_to (sl * 4096) (log s z))) /\
       zlen (pad_to (sl * 4096) (log s z)) mod (sl * B) = 0).
  { intros z Hop. pose proof (Hzi z) as (Hze & Hm).
    destruct (sbs_get (rd_sbs r) z) as [sb|] eqn:Hget; [|destruct Hm; congruence].
    destruct Hm as (_ & n & c & E1 & E2 & E3 & E4 & E5 & E6 & E7).
    assert (Hpm : zlen (pad_to (sl * 4096) (log s z)) mod (sl * B) = 0).
    { unfold pad_to. rewrite <- EB. pose proof (fill_to_bound (sl * B) (zlen (log s z)) HS).
      rewrite zlen_app, zlen_repeat by lia. apply mod_fill. lia. }
    destruct (Z.eq_dec (zlen c) 0) as [Ec|Ec].
    - (* nothing buffered *)
      apply zlen_0_nil in Ec. subst c. change (zlen []) with 0 in E6.
      assert (Ee : sb_is_empty sb = true) by (eapply sb_holds_empty; [exact E3|reflexivity]).
      exists 0, (rd_sbs r), (rd_store r).
      assert (Ep : pad_to (sl * 4096) (log s z) = log s z).
      { unfold pad_to. rewrite <- EB. assert (F0 : fill_to (sl * B) (zlen (log s z)) = 0).
        { unfold fill_to. apply Z.mod_opp_l_z; [lia|]. rewrite <- E6, Z.add_0_r. exact E5. }
        rewrite F0. apply app_nil_r. }
      split; [unfold flush_zone; rewrite Hget, Ee; now destruct r|].
      split; [reflexivity|]. split; [reflexivity|]. split; [exact Hwh|].
      cbn zeta. rewrite Ep.
      assert (Es : forall z', upd (log s) z (log s z) z' = log s z').
      { intros z'. unfold upd. destruct (Z.eqb_spec z' z); congruence. }
      split; [|split].
      + intros z'. pose proof (Hzi z') as Hi. unfold zone_inv, on_disk in *. cbn [log opened rd_sbs rd_store]. rewrite Es. exact Hi.
      + unfold on_disk. cbn [log]. rewrite Es. rewrite <- E6, Z.add_0_r. exact E7.
      + rewrite <- Ep. exact Hpm.
    - pose proof (zlen_nonneg c) as Hcn.
      destruct (flush_core g sl r z sb (zs z + n / B) c Hsl (lba_nonneg z n E4) (lba_aligned z n E5) Hget E3 ltac:(lia))
        as (sb' & d' & Ef & Hh' & Hst & Hw').
      exists (sl - zlen c / B), (sbs_set (rd_sbs r) z sb'), d'.
      split; [exact Ef|]. split; [apply sbs_set_keys|].
      assert (Hgs : forall z', sbs_get (sbs_set (rd_sbs r) z sb') z' = if z' =? z then Some sb' else sbs_get (rd_sbs r) z').
      { intros z'. apply sbs_get_set. congruence. }
      split; [intros z' Hne; rewrite Hgs; destruct (Z.eqb_spec z' z); congruence|].
      split; [apply Hw'; exact Hwh|]. cbn zeta.
      assert (Hfill : fill_to (sl * B) (zlen (log s z)) = sl * B - zlen c).
      { rewrite <- E6, Z.add_comm. destruct (mod_0_mult _ _ HS E5) as [q Eq]. rewrite Eq.
        rewrite fill_to_add_mult by lia. unfold fill_to. rewrite Z.mod_opp_l_nz; rewrite ?Z.mod_small; lia. }
      assert (Hpad : pad_to (sl * 4096) (log s z) = log s z ++ zrepeat 0 (sl * B - zlen c)).
      { unfold pad_to. rewrite <- EB, Hfill. reflexivity. }
      assert (Hroom : zs z * B + n + sl * B <= ze z * B).
      { apply (ze_room z n (mod_slB_B n E5) ltac:(lia) E5 (zlen c)); lia. }
      assert (Hcl : zlen (c ++ zrepeat 0 (sl * B - zlen c)) = sl * B) by (rewrite zlen_app, zlen_repeat; lia).
      assert (Hza : zone_inv sl zs ze g (RD (sbs_set (rd_sbs r) z sb') d')
                  (Spec (upd (log s) z (pad_to (sl * 4096) (log s z))) (opened s)) z).
      { eapply (zone_advance r s _ z sb' d' n c (zrepeat 0 (sl * B - zlen c)) (sl * B)); eauto.
        - rewrite Hgs, Z.eqb_refl. reflexivity.
        - cbn [log]. rewrite upd_same. exact Hpad.
        - lia.
        - apply Z.mod_same. lia.
        - lia.
        - cbn [log]. rewrite upd_same, Hpad, zlen_app, zlen_repeat by lia. lia.
        - rewrite zdrop_all by lia. rewrite mult_div. exact Hh'.
        - rewrite ztake_all by lia. exact Hst. }
      split; [|split; [|exact Hpm]].
      + intros z'. destruct (Z.eq_dec z' z) as [->|Hne]; [exact Hza|].
        eapply (zone_frame r s _ z z' _ d' (zs z + n / B) (c ++ zrepeat 0 (sl * B - zlen c))); auto.
        * rewrite Hgs. destruct (Z.eqb_spec z' z); congruence.
        * cbn [log]. now rewrite upd_other.
        * pose proof (Z.div_pos n B E4 HB). apply Z.mul_le_mono_nonneg_r; lia.
        * rewrite Hcl. pose proof (Z.div_mod n B ltac:(lia)). pose proof (mod_slB_B n E5). lia.
      + destruct Hza as (_ & Hza). cbn [rd_sbs] in Hza. rewrite Hgs, Z.eqb_refl in Hza.
        destruct Hza as (_ & n2 & c2 & F1 & F2 & F3 & F4 & F5 & F6 & F7).
        cbn [log] in F6. rewrite upd_same in F6.
        assert (Hc2 : concat (sb_buf sb') = c2) by apply F3.
        assert (Hc20 : c2 = []) by (rewrite <- Hc2; apply Hh'). subst c2. rewrite Hc20 in F6.
        change (zlen []) with 0 in F6. rewrite Z.add_0_r in F6. rewrite <- F6. exact F7. }
  destruct o as [z a|z lba buf|z|z]; cbn [step spec_step legal] in *.
  - (* Open *)
    destruct Hleg as (Hcl & Ha & Ham & Hal). unfold open_zone.
    pose proof (Hzi z) as (Hze & Hm).
    destruct (sbs_get (rd_sbs r) z) as [sb|] eqn:Hget; [destruct Hm; congruence|].
    destruct (Hz z) as (Hzm & Hem & Hzz).
    assert (Es : sb_new (zs z + a) sl = Some (SB [] (zs z + a))).
    { unfold sb_new. rewrite Z.add_mod by lia. rewrite Hzm, Ham. reflexivity. }
    rewrite Es. eexists. split; [reflexivity|]. destruct Hm as (_ & Hod & Hmm).
    assert (Hlt : zlen (ztake (a * 4096) (log s z)) = a * B) by (rewrite <- EB; apply zlen_take; lia).
    split; [|split; [|exact Hwh]].
    + cbn [rd_sbs map fst]. constructor; [|exact Hnd]. apply sbs_get_none_notin. exact Hget.
    + intros z'. destruct (Z.eq_dec z' z) as [->|Hne].
      * split; cbn [log opened rd_sbs sbs_get]; rewrite !upd_same; [lia|].
        rewrite Z.eqb_refl. split; [reflexivity|].
        exists (a * B), []. rewrite <- EB in *.
        split; [rewrite ztake_ztake by lia; rewrite Z.min_id, app_nil_r; reflexivity|].
        split; [change (zlen []) with 0; lia|].
        split; [rewrite mult_div; repeat split; [constructor|exists 0; reflexivity]|].
        split; [lia|]. split.
        { destruct (mod_0_mult _ _ Hsl Ham) as [q ->]. rewrite <- Z.mul_assoc. apply Z.mod_mul. lia. }
        split; [change (zlen []) with 0; lia|].
        intros i Hi. cbn [rd_store log]. rewrite upd_same, nth_ztake by lia. apply Hod. lia.
      * pose proof (Hzi z') as Hi. unfold zone_inv, on_disk in *. cbn [rd_sbs rd_store log opened sbs_get].
        rewrite !upd_other by exact Hne. destruct (Z.eqb_spec z' z); [contradiction|]. exact Hi.
  - (* Write *)
    destruct Hleg as (Hop & Hbl & Hlba & Hroom). pose proof (Hzi z) as (Hze & Hm).
    destruct (sbs_get (rd_sbs r) z) as [sb|] eqn:Hget; [|destruct Hm; congruence].
    destruct Hm as (_ & n & c & E1 & E2 & E3 & E4 & E5 & E6 & E7).
    pose proof (mod_slB_B n E5) as E5B. pose proof (Z.div_mod n B ltac:(lia)) as Hdm.
    pose proof E3 as (_ & _ & _ & qc & Hqc).
    assert (Elba : lba = zs z + n / B + zlen c / B).
    { rewrite Hqc, mult_div. apply (Z.mul_reg_r _ _ B); [lia|]. rewrite EB at 1. rewrite Hlba, <- EB, <- E6, Hqc. lia. }
    destruct (write_core g sl r z sb (zs z + n / B) c buf Hsl (lba_nonneg z n E4) (lba_aligned z n E5) Hget E3 ltac:(lia) Hbl)
      as (sb' & d' & Ew & Hh' & Hst & Hw').
    rewrite <- Elba in Ew. rewrite Ew. eexists. split; [reflexivity|].
    set (total := c ++ padded buf) in *.
    set (full := zlen total / (sl * B) * (sl * B)) in *.
    assert (Hgs : forall z', sbs_get (sbs_set (rd_sbs r) z sb') z' = if z' =? z then Some sb' else sbs_get (rd_sbs r) z').
    { intros z'. apply sbs_get_set. congruence. }
    assert (Hpl : pad_to 4096 (log s z ++ buf) = log s z ++ padded buf).
    { rewrite pad_to_B. unfold padded. rewrite <- app_assoc. do 2 f_equal.
      unfold lba_pad. rewrite zlen_app, <- E6, Hqc. f_equal.
      replace (- (n + qc * B + zlen buf)) with (- zlen buf + (- (n / B) - qc) * B) by lia.
      apply Z.mod_add. lia. }
    assert (Hf : 0 <= full <= zlen total /\ full mod (sl * B) = 0 /\ zlen total < full + sl * B).
    { pose proof (zlen_nonneg total). pose proof (Z.div_mod (zlen total) (sl * B) ltac:(lia)).
      pose proof (Z.mod_pos_bound (zlen total) (sl * B) HS). unfold full.
      pose proof (Z.div_pos (zlen total) (sl * B) ltac:(lia) HS).
      split; [split; [apply Z.mul_nonneg_nonneg; lia|lia]|]. split; [apply Z.mod_mul; lia|lia]. }
    destruct Hf as (Hf1 & Hf2 & Hf3).
    (* the zone's end is LBA aligned, so the padded data also fits *)
    assert (Hpr : zs z * B + zlen (log s z) + zlen (padded buf) <= ze z * B).
    { rewrite zlen_padded. destruct (lba_pad_mult (zlen buf)) as [qb Hqb]. pose proof (lba_pad_bound (zlen buf)).
      rewrite Hqb. rewrite <- E6, Hqc in *. rewrite <- EB in *.
      assert (Hx : (zs z + n / B + qc + qb) * B < (ze z + 1) * B) by lia.
      apply Z.mul_lt_mono_pos_r in Hx; [|lia].
      assert ((zs z + n / B + qc + qb) * B <= ze z * B) by (apply Z.mul_le_mono_nonneg_r; lia). lia. }
    assert (Htl : zlen total = zlen c + zlen (padded buf)) by (unfold total; apply zlen_app).
    split; [|split; [|apply Hw'; exact Hwh]].
    + cbn [rd_sbs]. rewrite sbs_set_keys. exact Hnd.
    + intros z'. destruct (Z.eq_dec z' z) as [->|Hne].
      * eapply (zone_advance r s _ z sb' d' n c (padded buf) full); eauto.
        -- rewrite Hgs, Z.eqb_refl. reflexivity.
        -- cbn [log]. rewrite upd_same. exact Hpl.
        -- cbn [log]. rewrite upd_same, Hpl, zlen_app. lia.
      * eapply (zone_frame r s _ z z' _ d' (zs z + n / B) (ztake full total)); auto.
        -- rewrite Hgs. destruct (Z.eqb_spec z' z); congruence.
        -- cbn [log]. now rewrite upd_other.
        -- pose proof (Z.div_pos n B E4 HB). apply Z.mul_le_mono_nonneg_r; lia.
        -- rewrite zlen_take by lia. lia.
  - (* Flush *)
    destruct (opened s z) eqn:Hop.
    + destruct (FL z Hop) as (pl & sbs' & d' & Ef & Hk & Hg & Hw & Hi & _). rewrite Ef. cbn [option_map snd].
      eexists. split; [reflexivity|]. split; [cbn [rd_sbs]; rewrite Hk; exact Hnd|]. split; [exact Hi|exact Hw].
    + pose proof (Hzi z) as (_ & Hm). unfold flush_zone.
      destruct (sbs_get (rd_sbs r) z) as [sb|]; [destruct Hm; congruence|].
      cbn. eexists. split; [reflexivity|]. split; [exact Hnd|]. split; [exact Hzi|exact Hwh].
  - (* Finish *)
    destruct (FL z Hleg) as (pl & sbs' & d' & Ef & Hk & Hg & Hw & Hi & Hod & Hpm).
    unfold finish_zone. pose proof (Hzi z) as (_ & Hm).
    destruct (sbs_get (rd_sbs r) z) as [sb|] eqn:Hget; [|destruct Hm; congruence]. clear Hm.
    rewrite Ef. cbn [rd_sbs rd_store]. eexists. split; [reflexivity|].
    assert (Hgf : forall z', sbs_get (filter (fun p => negb (fst p =? z)) sbs') z' =
                   if z' =? z then None else sbs_get sbs' z').
    { intros z'. induction sbs' as [|[k v] l IH]; cbn [filter sbs_get fst]; [now destruct (z' =? z)|].
      assert (IH' : sbs_get (filter (fun p => negb (fst p =? z)) l) z' = if z' =? z then None else sbs_get l z').
      { clear -l. induction l as [|[k v] l IH]; cbn [filter sbs_get fst]; [now destruct (z' =? z)|].
        destruct (Z.eqb_spec k z); cbn [negb sbs_get].
        - rewrite IH. subst k. destruct (Z.eqb_spec z' z); reflexivity.
        - destruct (Z.eqb_spec z' k), (Z.eqb_spec z' z); try congruence; try lia. }
      destruct (Z.eqb_spec k z); cbn [negb sbs_get].
      - rewrite IH'. subst k. destruct (Z.eqb_spec z' z); reflexivity.
      - rewrite IH'. destruct (Z.eqb_spec z' k), (Z.eqb_spec z' z); try congruence; try lia. }
    split; [|split; [|exact Hw]].
    + cbn [rd_sbs]. rewrite <- Hk in Hnd. clear -Hnd.
      induction sbs' as [|[k v] l IH]; cbn [filter map fst] in *; [constructor|].
      inversion Hnd as [|? ? Hni Hnd']; subst. destruct (negb (k =? z)); [|auto].
      cbn [map fst]. constructor; [|auto]. intros Hin. apply Hni. apply in_map_iff in Hin.
      destruct Hin as ([k2 v2] & Ek & Hin). apply filter_In in Hin. apply in_map_iff. exists (k2, v2). tauto.
    + intros z'. specialize (Hi z'). unfold zone_inv in *. cbn [rd_sbs log opened] in *. rewrite Hgf.
      destruct (Z.eqb_spec z' z) as [->|Hne].
      * rewrite upd_same in *. destruct Hi as (Hi & _). split; [exact Hi|]. split; [apply upd_same|].
        split; [|exact Hpm]. exact Hod.
      * rewrite !upd_other in * by exact Hne. exact Hi.
Qed.

Lemma run_inv ops : forall r s, inv sl zs ze g r s -> legal_run sl zs ze s ops ->
  exists r', run sl zs r ops = Some r' /\ inv sl zs ze g r' (spec_run sl s ops).
Proof.
  induction ops as [|o ops IH]; intros r s Hi Hl; cbn [run legal_run] in *.
  - eauto.
  - destruct Hl as [Hl1 Hl2]. destruct (step_inv r s o Hi Hl1) as (r1 & E1 & Hi1). rewrite E1.
    apply IH; assumption.
Qed.

Lemma st_read_on_disk r s z n off len : on_disk zs g r s z n -> 0 <= off -> 0 <= len -> off + len <= n ->
  n <= zlen (log s z) ->
  st_read g (rd_store r) (zs z * B + off) len = ztake len (zdrop off (log s z)).
Proof.
  intros Hod Ho Hl Hn Hll.
  apply (nth_ext _ _ 0 0).
  - unfold st_read. rewrite map_length. assert (H : zlen (ztake len (zdrop off (log s z))) = len).
    { rewrite zlen_take; [reflexivity|]. rewrite zlen_drop by lia. lia. }
    unfold zlen in H. rewrite zrange_length. lia.
  - intros k Hk. unfold st_read in *. rewrite map_length, zrange_length in Hk.
    rewrite (nth_indep _ 0 (st_get g (rd_store r) (zs z * B + off + 0))) by (rewrite map_length, zrange_length; lia).
    rewrite (map_nth (fun i => st_get g (rd_store r) (zs z * B + off + i))).
    assert (En : nth k (zrange 0 len) 0 = Z.of_nat k).
    { rewrite nth_zrange; lia. }
    rewrite En. rewrite <- Z.add_assoc, Hod by lia.
    replace k with (Z.to_nat (Z.of_nat k)) at 2 by lia.
    rewrite nth_ztake by lia. unfold zdrop. 
    rewrite <- (firstn_skipn (Z.to_nat off) (log s z)) at 1.
    assert (Hfl : length (firstn (Z.to_nat off) (log s z)) = Z.to_nat off).
    { rewrite firstn_length. unfold zlen in *. lia. }
    rewrite app_nth2 by lia. f_equal. lia.
Qed.

Lemma read_spec r s z lba len : inv sl zs ze g r s ->
  0 < len -> len mod 4096 = 0 -> zs z <= lba -> (lba - zs z) * 4096 + len <= zlen (log s z) ->
  read_at g r lba len = Some (ztake len (zdrop ((lba - zs z) * 4096) (log s z))).
Proof.
  intros (Hnd & Hzi & _) Hl Hlm Hlo Hhi. pose proof slB as HS. pose proof Bpos as HB.
  pose proof G as (Hsl & Hz & Hdis). assert (EB : B = 4096) by reflexivity. rewrite <- EB in *.
  unfold read_at. rewrite Hlm. cbn [Z.eqb negb].
  destruct (mod_0_mult _ _ HB Hlm) as [ql Hql].
  assert (Hql1 : 1 <= ql).
  { destruct (Z.le_gt_cases 1 ql); [assumption|]. assert (ql * B <= 0 * B) by (apply Z.mul_le_mono_nonneg_r; lia). lia. }
  assert (Eend : lba + (len - 1) / B = lba + ql - 1).
  { replace (len - 1) with ((B - 1) + (ql - 1) * B) by lia. rewrite Z.div_add by lia.
    rewrite (Z.div_small (B - 1)) by lia. lia. }
  rewrite Eend.
  pose proof (Hzi z) as (Hze & Hm).
  assert (Hrng : (lba + ql) * B <= ze z * B) by lia.
  assert (Hrng' : lba + ql <= ze z) by (apply (Z.mul_le_mono_pos_r _ _ B); lia).
  (* any buffer that overlaps belongs to zone z *)
  assert (Hov : forall z' sb', sbs_get (rd_sbs r) z' = Some sb' -> sb_overlaps lba (lba + ql - 1) sb' = true -> z' = z).
  { intros z' sb' Hg Ho. destruct (Z.eq_dec z' z) as [|Hne]; [assumption|exfalso].
    pose proof (Hzi z') as (Hze' & Hm'). rewrite Hg in Hm'.
    destruct Hm' as (_ & n & c & E1 & E2 & E3 & E4 & E5 & E6 & E7).
    unfold sb_overlaps in Ho. rewrite (sb_holds_next _ _ _ E3) in Ho.
    apply andb_true_iff in Ho. destruct Ho as [Ho1 Ho3]. apply andb_true_iff in Ho1. destruct Ho1 as [_ Ho2].
    assert (Esl : sb_lba sb' = zs z' + n / B) by apply E3. rewrite Esl in Ho3.
    destruct E3 as (_ & _ & _ & q & Hq). rewrite Hq, mult_div in Ho2.
    pose proof (Z.div_pos n B E4 HB). pose proof (Z.div_mod n B ltac:(lia)) as Hdm.
    pose proof (mod_slB_B n E5) as HnB.
    assert ((zs z' + n / B + q) * B <= ze z' * B) by lia.
    assert (zs z' + n / B + q <= ze z') by (apply (Z.mul_le_mono_pos_r _ _ B); lia).
    destruct (Hdis z' z Hne); lia. }
  assert (Hsbs : forall p, In p (rd_sbs r) -> sbs_get (rd_sbs r) (fst p) = Some (snd p)).
  { clear -Hnd. induction (rd_sbs r) as [|[k v] l IH]; intros p Hp; [contradiction|].
    cbn [map fst] in Hnd. inversion Hnd as [|? ? Hni Hnd']; subst. destruct Hp as [<-|Hp]; cbn [sbs_get fst snd].
    - rewrite Z.eqb_refl. reflexivity.
    - destruct (Z.eqb_spec (fst p) k); [exfalso; apply Hni; subst k; now apply in_map|auto]. }
  destruct (find (sb_overlaps lba (lba + ql - 1)) (map snd (rd_sbs r))) as [sb|] eqn:Ef.
  - apply find_some in Ef. destruct Ef as [Hin Hov1]. apply in_map_iff in Hin. destruct Hin as ([z' sb0] & Es & Hin).
    cbn [snd] in Es. subst sb0. pose proof (Hsbs _ Hin) as Hg. cbn [fst snd] in Hg.
    assert (z' = z) by (eapply Hov; eauto). subst z'. rewrite Hg in Hm.
    destruct Hm as (_ & n & c & E1 & E2 & E3 & E4 & E5 & E6 & E7).
    pose proof (mod_slB_B n E5) as HnB. pose proof (Z.div_mod n B ltac:(lia)) as Hdm.
    assert (Hsl' : sb_lba sb = zs z + n / B) by apply E3.
    unfold sb_overlaps in Hov1. rewrite (sb_holds_next _ _ _ E3), Hsl' in Hov1.
    apply andb_true_iff in Hov1. destruct Hov1 as [Ho1 Ho3]. apply andb_true_iff in Ho1. destruct Ho1 as [_ Ho2].
    pose proof E3 as (Hcat & Hne & _ & q & Hq). rewrite Hq, mult_div in Ho2.
    assert (Hci : cur_inv (cursor_from (sb_buf sb))) by (apply next_seg_inv; exact Hne).
    assert (Hrs : rest (cursor_from (sb_buf sb)) = c).
    { unfold cursor_from. rewrite rest_from_skipn. exact Hcat. }
    rewrite Hsl'.
    assert (Htk : zlen (ztake n (log s z)) = n) by (rewrite zlen_take; [lia|pose proof (zlen_nonneg c); lia]).
    destruct (Z.gtb_spec (zs z + n / B) lba) as [Hgt|Hle].
    + (* starts on disk *)
      set (dl := (zs z + n / B - lba) * B).
      assert (Hdl : 0 < dl) by (apply Z.mul_pos_pos; lia).
      assert (Hdl' : dl <= len).
      { unfold dl. rewrite Hql. apply Z.mul_le_mono_nonneg_r; lia. }
      assert (Hdn : (lba - zs z) * B + dl = n) by (unfold dl; lia).
      destruct (one_col_spec (Z.to_nat (len - dl)) (cursor_from (sb_buf sb)) 0 (len - dl) Hci) as (col & c' & Eo & Ec & _).
      { lia. } { rewrite Hrs. lia. } { lia. }
      rewrite Eo. destruct (Z.eqb_spec dl 0); [lia|]. f_equal. rewrite Z.sub_0_r, Hrs in Ec. rewrite Ec.
      replace (lba * B) with (zs z * B + (lba - zs z) * B) by lia.
      assert (0 <= (lba - zs z) * B) by (apply Z.mul_nonneg_nonneg; lia).
      rewrite (st_read_on_disk r s z n) by (try assumption; pose proof (zlen_nonneg c); lia).
      rewrite E1. rewrite !zdrop_app_le by lia.
      rewrite (ztake_app_ge len) by (rewrite zlen_drop by lia; lia).
      rewrite ztake_app_le by (rewrite zlen_drop by lia; lia).
      rewrite (ztake_all dl) by (rewrite zlen_drop by lia; lia).
      rewrite (zlen_drop _ (ztake n _)) by lia. rewrite Htk. do 2 f_equal. lia.
    + (* entirely in the buffer *)
      set (sk := (lba - (zs z + n / B)) * B).
      assert (Hsk : 0 <= sk) by (apply Z.mul_nonneg_nonneg; lia).
      assert (Hskn : (lba - zs z) * B = n + sk) by (unfold sk; lia).
      destruct (one_col_spec (Z.to_nat sk) (cursor_from (sb_buf sb)) 0 sk Hci) as (col0 & c0 & Eo0 & _ & Er0 & Hc0).
      { lia. } { rewrite Hrs. lia. } { lia. }
      rewrite Eo0. rewrite Z.sub_0_r, Hrs in Er0. rewrite Z.sub_0_r.
      destruct (one_col_spec (Z.to_nat len) c0 0 len Hc0) as (col & c' & Eo & Ec & _).
      { lia. } { rewrite Er0, zlen_drop by lia. lia. } { lia. }
      rewrite Eo. cbn [Z.eqb app]. f_equal. rewrite Z.sub_0_r, Er0 in Ec. rewrite Ec. rewrite E1, Hskn.
      rewrite (zdrop_app_ge (n + sk)) by lia. rewrite Htk. do 2 f_equal. lia.
  - (* no buffer involved: all on disk *)
    assert (Hdisk : exists n, on_disk zs g r s z n /\ (lba - zs z) * B + len <= n /\ n <= zlen (log s z)).
    { destruct (sbs_get (rd_sbs r) z) as [sb|] eqn:Hg.
      - destruct Hm as (_ & n & c & E1 & E2 & E3 & E4 & E5 & E6 & E7). exists n. split; [exact E7|].
        split; [|pose proof (zlen_nonneg c); lia].
        assert (Hin : In sb (map snd (rd_sbs r))).
        { clear -Hg. induction (rd_sbs r) as [|[k v] l IH]; cbn [sbs_get] in Hg; [discriminate|].
          destruct (Z.eqb_spec z k); [injection Hg as ->; left; reflexivity|right; auto]. }
        pose proof (find_none _ _ Ef _ Hin) as Hno. unfold sb_overlaps in Hno.
        pose proof (mod_slB_B n E5) as HnB. pose proof (Z.div_mod n B ltac:(lia)) as Hdm.
        rewrite (sb_holds_next _ _ _ E3) in Hno.
        assert (Hsl' : sb_lba sb = zs z + n / B) by apply E3. rewrite Hsl' in Hno.
        destruct (sb_is_empty sb) eqn:Ee.
        + assert (c = []) by (eapply sb_holds_empty; eauto). subst c. change (zlen []) with 0 in *. lia.
        + cbn [negb andb] in Hno. destruct E3 as (_ & _ & _ & q & Hq). rewrite Hq, mult_div in Hno.
          assert (Hx : (lba + ql) * B <= (zs z + n / B + q) * B) by lia.
          assert (Hx' : lba + ql <= zs z + n / B + q) by (apply (Z.mul_le_mono_pos_r _ _ B); lia).
          assert (lba + ql - 1 < zs z + n / B) by lia.
          assert ((lba + ql) * B <= (zs z + n / B) * B) by (apply Z.mul_le_mono_nonneg_r; lia). lia.
      - destruct Hm as (_ & Hod & _). exists (zlen (log s z)). split; [exact Hod|]. lia. }
    destruct Hdisk as (n & Hod & Hn1 & Hn2).
    replace (lba * B) with (zs z * B + (lba - zs z) * B) by lia.
    assert (0 <= (lba - zs z) * B) by (apply Z.mul_nonneg_nonneg; lia).
    f_equal. apply (st_read_on_disk r s z n); try assumption; lia.
Qed.

Lemma inv_init : inv sl zs ze g (RD [] []) (Spec (fun _ => []) (fun _ => false)).
Proof.
  split; [constructor|]. split; [|constructor]. intros z. destruct G as (_ & Hz & _). destruct (Hz z) as (_ & _ & Hle).
  unfold zone_inv. cbn [rd_sbs sbs_get log opened]. change (zlen []) with 0. pose proof Bpos.
  split; [assert (zs z * B <= ze z * B) by (apply Z.mul_le_mono_nonneg_r; lia); lia|].
  split; [reflexivity|]. split; [intros i Hi; lia|]. reflexivity.
Qed.

End Proofs.

Definition raid0 : raid := RD [] [].
Definition spec0 : spec := Spec (fun _ => []) (fun _ => false).

(** ** C08.  For every stripe size, zone geometry, previous contents of the array and sequence of openings,
    appends, flushes and finishes: none panics; any LBA range already appended reads
    back exactly the bytes appended there, whether still buffered, on disk or both;
    and the array below only ever receives whole, aligned stripes. *)
Theorem C08_stripe_buffer_read_back : forall sl zs ze g ops, geometry sl zs ze ->
  legal_run sl zs ze spec0 ops ->
  exists r, run sl zs raid0 ops = Some r /\
    (forall z lba len, 0 < len -> len mod 4096 = 0 -> zs z <= lba ->
       (lba - zs z) * 4096 + len <= zlen (log (spec_run sl spec0 ops) z) ->
       read_at g r lba len =
         Some (ztake len (zdrop ((lba - zs z) * 4096) (log (spec_run sl spec0 ops) z)))) /\
    (forall l bs, In (l, bs) (rd_store r) -> 0 <= l /\ l mod sl = 0 /\ zlen bs mod (sl * 4096) = 0).
Proof.
  intros sl zs ze g ops G Hl.
  destruct (run_inv sl zs ze G g ops raid0 spec0 (inv_init sl zs ze G g) Hl) as (r & Er & Hi).
  exists r. split; [exact Er|]. split.
  - intros z lba len H1 H2 H3 H4. eapply read_spec; eauto.
  - intros l bs Hin. destruct Hi as (_ & _ & Hw). rewrite Forall_forall in Hw. exact (Hw _ Hin).
Qed.

(** After a flush, everything appended to the zone is in the array below, not just in
    RAM, and the number of padding LBAs reported is what the zone grew by. *)
Theorem C08_flush_writes_everything : forall sl zs ze g ops z, geometry sl zs ze ->
  legal_run sl zs ze spec0 ops ->
  exists r pad r', run sl zs raid0 ops = Some r /\ flush_zone sl r z = Some (pad, r') /\
    let before := log (spec_run sl spec0 ops) z in
    let after := log (spec_run sl spec0 (ops ++ [Flush z])) z in
    zlen after = zlen before + pad * 4096 /\
    st_read g (rd_store r') (zs z * 4096) (zlen after) = after.
Proof.
  intros sl zs ze g ops z G Hl. pose proof G as (Hsl & Hz & _). pose proof (slB sl zs ze G g) as HS. pose proof Bpos as HB.
  destruct (run_inv sl zs ze G g ops raid0 spec0 (inv_init sl zs ze G g) Hl) as (r & Er & Hi).
  destruct (step_inv sl zs ze G g r (spec_run sl spec0 ops) (Flush z) Hi I) as (r' & Es & Hi').
  cbn [step] in Es. destruct (flush_zone sl r z) as [[pad r1]|] eqn:Ef; [|discriminate].
  cbn [option_map snd] in Es. injection Es as ->.
  exists r, pad, r'. split; [exact Er|]. split; [exact Ef|]. cbn zeta.
  assert (Ea : spec_run sl spec0 (ops ++ [Flush z]) = spec_step sl (spec_run sl spec0 ops) (Flush z)).
  { unfold spec_run. rewrite fold_left_app. reflexivity. }
  rewrite Ea. set (s := spec_run sl spec0 ops) in *. cbn [spec_step] in *.
  destruct Hi as (_ & Hzi & _). destruct Hi' as (_ & Hzi' & _).
  pose proof (Hzi z) as (_ & Hm). pose proof (Hzi' z) as (_ & Hm').
  unfold flush_zone in Ef.
  destruct (sbs_get (rd_sbs r) z) as [sb|] eqn:Hget.
  - destruct Hm as (Hop & n & c & E1 & E2 & E3 & E4 & E5 & E6 & E7). rewrite Hop in *. cbn [log] in *.
    rewrite upd_same in *.
    destruct (sb_is_empty sb) eqn:Ee.
    + injection Ef as <- <-. rewrite Hget in Hm'.
      assert (c = []) by (eapply sb_holds_empty; eauto). subst c. change (zlen []) with 0 in E6.
      assert (Ep : pad_to (sl * 4096) (log s z) = log s z).
      { unfold pad_to. assert (F0 : fill_to (sl * 4096) (zlen (log s z)) = 0).
        { unfold fill_to. change 4096 with B. apply Z.mod_opp_l_z; [lia|]. rewrite <- E6, Z.add_0_r. exact E5. }
        rewrite F0. apply app_nil_r. }
      rewrite Ep. split; [lia|].
      change 4096 with B. rewrite <- (Z.add_0_r (zs z * B)).
      rewrite (st_read_on_disk zs g r s z n 0); try assumption; try lia.
      rewrite zdrop_0, ztake_all by lia. reflexivity.
    + pose proof (zlen_nonneg c) as Hcn.
      assert (Hcz : zlen c <> 0).
      { intros Hc0. apply zlen_0_nil in Hc0. subst c. assert (sb_is_empty sb = true) by (eapply sb_holds_empty; eauto). congruence. }
      destruct (flush_core g sl r z sb _ c Hsl (lba_nonneg sl zs ze G g z n E4) (lba_aligned sl zs ze G g z n E5) Hget E3 ltac:(lia))
        as (sb' & d' & Ef2 & Hh' & Hst & _).
      unfold flush_zone in Ef2. rewrite Hget, Ee in Ef2. rewrite Ef in Ef2. injection Ef2 as -> ->.
      cbn [rd_sbs rd_store] in *. rewrite (sbs_get_set _ z sb' z) in Hm' by congruence. rewrite Z.eqb_refl in Hm'.
      destruct Hm' as (_ & n2 & c2 & F1 & F2 & F3 & F4 & F5 & F6 & F7).
      assert (Hc20 : c2 = []).
      { assert (Hc2 : concat (sb_buf sb') = c2) by apply F3. rewrite <- Hc2. apply Hh'. }
      subst c2. change (zlen []) with 0 in F6.
      split.
      * unfold pad_to. change 4096 with B.
        assert (Hfill : fill_to (sl * B) (zlen (log s z)) = sl * B - zlen c).
        { rewrite <- E6, Z.add_comm. destruct (mod_0_mult _ _ HS E5) as [q Eq]. rewrite Eq.
          rewrite (fill_to_add_mult g) by lia. unfold fill_to. rewrite Z.mod_opp_l_nz; rewrite ?Z.mod_small; lia. }
        rewrite Hfill, zlen_app, zlen_repeat by lia. f_equal.
        destruct E3 as (_ & _ & _ & q & Hq). rewrite Hq, mult_div. lia.
      * change 4096 with B. rewrite <- (Z.add_0_r (zs z * B)).
        set (s' := Spec (upd (log s) z (pad_to (sl * B) (log s z))) (opened s)) in *.
        assert (El : log s' z = pad_to (sl * B) (log s z)) by (cbn [log s']; apply upd_same).
        rewrite <- El.
        change d' with (rd_store (RD (sbs_set (rd_sbs r) z sb') d')).
        rewrite (st_read_on_disk zs g _ s' z n2 0); try (rewrite El); try assumption; try lia;
          try (change (pad_to (sl * B) (log s z)) with (pad_to (sl * 4096) (log s z)); lia).
        rewrite zdrop_0, ztake_all by lia. reflexivity.
  - injection Ef as <- <-. destruct Hm as (Hop & Hod & Hmm). rewrite Hop. split; [lia|].
    change 4096 with B. rewrite <- (Z.add_0_r (zs z * B)).
    rewrite (st_read_on_disk zs g r s z (zlen (log s z)) 0); try assumption; try lia; try apply zlen_nonneg.
    rewrite zdrop_0, ztake_all by lia. reflexivity.
Qed.

(** Two LBAs per stripe, zones of four LBAs: an unaligned append, a straddling append, a
    read spanning disk and buffer, then a flush. *)
Definition ex_zs (z : Z) : Z := 4 * Z.max 0 z.
Definition ex_ze (z : Z) : Z := 4 * Z.max 0 (z + 1). (* there are no zones with negative numbers *)
Definition ex_ops : list op :=
  [Open 1 0; Write 1 4 [1;2;3]; Write 1 5 (zrepeat 9 8192); Open 0 0; Write 0 0 [5]; Flush 0].

Example C08_ex_geometry : geometry 2 ex_zs ex_ze.
Proof.
  unfold geometry, ex_zs, ex_ze. split; [lia|]. split.
  - intros z. replace (4 * Z.max 0 z) with (2 * Z.max 0 z * 2) by lia. rewrite Z.mod_mul by lia.
    replace (4 * Z.max 0 (z + 1)) with (2 * Z.max 0 (z + 1) * 2) by lia. rewrite Z.mod_mul by lia. lia.
  - intros. lia.
Qed.
Example C08_ex_legal : legal_run 2 ex_zs ex_ze spec0 ex_ops.
Proof. repeat split; try (vm_compute; congruence). Qed.
Example C08_ex_run :
  match run 2 ex_zs raid0 ex_ops with
  | Some r => option_map (fun l => (nth 0 l 0, nth 2 l 0, nth 5 l 0, zlen l)) (read_at (fun _ => 7) r 4 4096)
  | None => None
  end = Some (1, 3, 0, 4096).
Proof. vm_compute. reflexivity. Qed.

Print Assumptions C08_stripe_buffer_read_back.
Print Assumptions C08_flush_writes_everything.
