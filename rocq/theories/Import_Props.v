(** C102: a pool is put together from the disks that carry it, whatever else is tasted and in whatever order. *)
From Coq Require Import String Permutation.
From Verif Require Import Common ZMap FSM_Model Prop_Model Prop_Props Import_Model.
Import List ListNotations.
Local Open Scope Z_scope.

(** ** Specification *)

(** What a pool is made of. *)
Record lmirror := LM { lm_uuid : Z; lm_leaves : list Z }.
Record lcluster := LC { lc_null : bool; lc_uuid : Z; lc_mirrors : list lmirror }.
Record layout := Lay { la_name : text; la_uuid : Z; la_clusters : list lcluster }.

Definition all_mirrors (L : layout) : list lmirror := flat_map lc_mirrors (la_clusters L).
Definition all_leaves (L : layout) : list Z := flat_map lm_leaves (all_mirrors L).

(** UUIDs are unique; a cluster that is not RAID is one mirror. *)
Definition wf (L : layout) : Prop :=
  NoDup (map lc_uuid (la_clusters L)) /\ NoDup (map lm_uuid (all_mirrors L)) /\ NoDup (all_leaves L) /\ la_clusters L <> []
  /\ (forall c, In c (la_clusters L) -> lc_null c = true -> exists m, lc_mirrors c = [m]).

(** A disk whose label describes the pool. *)
Definition of_layout (L : layout) (d : label) : Prop :=
  exists c m, In c (la_clusters L) /\ In m (lc_mirrors c) /\ In (l_uuid d) (lm_leaves m) /\ 0 <= l_txg d
  /\ l_mirror d = MLabel (lm_uuid m) (lm_leaves m)
  /\ l_raid d = RLabel (lc_null c) (lc_uuid c) (map lm_uuid (lc_mirrors c))
  /\ l_pool d = PLabel (la_name L) (la_uuid L) (map lc_uuid (la_clusters L)).

(** A disk that has nothing to do with the pool. *)
Definition foreign (L : layout) (d : label) : Prop :=
  ~ In (l_uuid d) (all_leaves L) /\ ~ In (ml_uuid (l_mirror d)) (map lm_uuid (all_mirrors L))
  /\ ~ In (rl_uuid (l_raid d)) (map lc_uuid (la_clusters L)) /\ pl_uuid (l_pool d) <> la_uuid L.

(** The disks found: those of the pool agree on what it is made of, and no two have the same UUID. *)
Definition found (L : layout) (ds : list (option label)) : Prop :=
  (forall d, In (Some d) ds -> of_layout L d \/ foreign L d)
  /\ (forall d d', In (Some d) ds -> In (Some d') ds -> l_uuid d = l_uuid d' -> d = d').

Definition tasted (ds : list (option label)) : mgr := fold_left taste ds mgr0.

(** Results arrive in some order. *)
Definition fair (T : timing) : Prop :=
  (forall u l, Permutation (t_leaves T u l) l) /\ (forall u l, Permutation (t_mirrors T u l) l) /\ (forall u l, Permutation (t_clusters T u l) l).

Definition has (ds : list (option label)) (m : lmirror) : Prop := exists d, In (Some d) ds /\ In (l_uuid d) (lm_leaves m).

(** A disk of a mirror is used if it was found and no other disk of the mirror has a later transaction, and rebuilt if one has. *)
Definition leaf_ok (ds : list (option label)) (m : lmirror) (x : Z * child) : Prop :=
  match snd x with
  | CPresent d => In (Some d) ds /\ l_uuid d = fst x
                  /\ forall e, In (Some e) ds -> In (l_uuid e) (lm_leaves m) -> l_txg e <= l_txg d
  | CRebuilding d => In (Some d) ds /\ l_uuid d = fst x
                  /\ exists e, In (Some e) ds /\ In (l_uuid e) (lm_leaves m) /\ l_txg d < l_txg e
  | CMissing => forall d, In (Some d) ds -> l_uuid d <> fst x
  end.

Definition mirror_ok ds (m : lmirror) (x : mirror) : Prop :=
  m_uuid x = lm_uuid m /\ map fst (m_children x) = lm_leaves m /\ Forall (leaf_ok ds m) (m_children x).

Definition member_ok ds (m : lmirror) (x : Z * option mirror) : Prop :=
  fst x = lm_uuid m /\ match snd x with Some y => has ds m /\ mirror_ok ds m y | None => ~ has ds m end.

Definition cluster_ok ds (c : lcluster) (r : raid) : Prop :=
  match r with
  | Null u x => lc_null c = true /\ u = lc_uuid c /\ exists m, lc_mirrors c = [m] /\ mirror_ok ds m x
  | Raid u ms => lc_null c = false /\ u = lc_uuid c /\ Forall2 (member_ok ds) (lc_mirrors c) ms
  end.

Definition pool_ok ds (L : layout) (p : pool) : Prop :=
  p_name p = la_name L /\ p_uuid p = la_uuid L /\ Forall2 (cluster_ok ds) (la_clusters L) (p_clusters p).

(** The label that the pool's contents are taken from is the latest of some mirror of the pool. *)
Definition label_ok ds (L : layout) (l : label) : Prop :=
  exists m, In m (all_mirrors L) /\ In (Some l) ds /\ In (l_uuid l) (lm_leaves m)
  /\ forall e, In (Some e) ds -> In (l_uuid e) (lm_leaves m) -> l_txg e <= l_txg l.

(** Every cluster has a disk. *)
Definition whole ds (L : layout) : Prop := forall c, In c (la_clusters L) -> exists m, In m (lc_mirrors c) /\ has ds m.

(** ** Maps *)

Lemma collect_snoc {A} (f : A -> Z) l a : collect f (l ++ [a]) = zm_set (f a) a (collect f l).
Proof. unfold collect. now rewrite fold_left_app. Qed.

Lemma collect_ok {A} (f : A -> Z) l : zm_ok (collect f l).
Proof.
  induction l as [|a l IH] using rev_ind; [constructor|]. rewrite collect_snoc. now apply zm_ok_set.
Qed.

Lemma nodup_snoc {A} (l : list A) a : NoDup (l ++ [a]) -> NoDup l /\ ~ In a l.
Proof.
  intros H. apply NoDup_rev in H. rewrite rev_app_distr in H. cbn in H. inversion H as [|? ? H1 H2]; subst.
  split; [apply NoDup_rev in H2; now rewrite rev_involutive in H2|]. now rewrite in_rev.
Qed.

Lemma collect_get {A} (f : A -> Z) l k a : NoDup (map f l) -> zm_get k (collect f l) = Some a <-> In a l /\ f a = k.
Proof.
  induction l as [|b l IH] using rev_ind; intros HN; [cbn; intuition discriminate|].
  rewrite map_app in HN. apply nodup_snoc in HN. destruct HN as [HN Hb].
  rewrite collect_snoc, zm_get_set by apply collect_ok. rewrite in_app_iff. cbn [In].
  destruct (Z.eqb_spec k (f b)) as [->|Hk].
  - split; [intros [= ->]; auto|]. intros [[Ha|[->|[]]] E]; [|reflexivity].
    exfalso. apply Hb. rewrite <- E. now apply in_map.
  - rewrite IH by assumption. split; [tauto|]. intros [[Ha|[->|[]]] E]; [auto|congruence].
Qed.

Lemma collect_none {A} (f : A -> Z) l k : NoDup (map f l) -> zm_get k (collect f l) = None <-> (forall a, In a l -> f a <> k).
Proof.
  intros HN. split.
  - intros E a Ha Hk. assert (G : zm_get k (collect f l) = Some a) by (apply collect_get; auto). congruence.
  - intros H. destruct (zm_get k (collect f l)) as [a|] eqn:E; [|reflexivity].
    apply collect_get in E; [|assumption]. destruct E as [Ha Hk]. now destruct (H a Ha).
Qed.

Lemma zm_set_length {A} k (v : A) m : zm_get k m = None -> length (zm_set k v m) = S (length m).
Proof.
  induction m as [|[k' v'] m IH]; cbn; [reflexivity|].
  destruct (Z.eqb_spec k k'); [discriminate|]. intros E. destruct (k <? k'); cbn; [reflexivity|]. now rewrite IH.
Qed.

Lemma collect_length {A} (f : A -> Z) l : NoDup (map f l) -> length (collect f l) = length l.
Proof.
  induction l as [|a l IH] using rev_ind; intros HN; [reflexivity|].
  rewrite map_app in HN. apply nodup_snoc in HN. destruct HN as [HN Hb].
  rewrite collect_snoc, zm_set_length, IH, app_length; [cbn; lia|assumption|].
  apply collect_none; [assumption|]. intros b Hb' E. apply Hb. rewrite <- E. now apply in_map.
Qed.

Lemma open_children_eq h us : forall leaves, zm_ok leaves -> NoDup us ->
  open_children h leaves us = map (fun u => (u, match zm_get u leaves with
        | Some d => if l_txg d =? h then CPresent d else CRebuilding d | None => CMissing end)) us.
Proof.
  induction us as [|u us IH]; intros leaves Ho HN; [reflexivity|]. inversion HN as [|? ? H1 H2]; subst.
  cbn. f_equal. rewrite IH by (try assumption; now apply zm_ok_del).
  apply map_ext_in. intros w Hw. rewrite zm_get_del by assumption.
  destruct (Z.eqb_spec w u) as [->|]; [contradiction|reflexivity].
Qed.

Lemma open_members_eq us : forall ms, zm_ok ms -> NoDup us ->
  open_members ms us = map (fun u => (u, match zm_get u ms with Some (m, _) => Some m | None => None end)) us.
Proof.
  induction us as [|u us IH]; intros ms Ho HN; [reflexivity|]. inversion HN as [|? ? H1 H2]; subst.
  cbn. f_equal. rewrite IH by (try assumption; now apply zm_ok_del).
  apply map_ext_in. intros w Hw. rewrite zm_get_del by assumption.
  destruct (Z.eqb_spec w u) as [->|]; [contradiction|reflexivity].
Qed.

Lemma gots_in {A} (l : list (res A)) a : In a (gots l) <-> In (Got a) l.
Proof.
  induction l as [|[b|] l IH]; cbn; [tauto| |].
  - rewrite IH. split; intros [E|E]; auto; [left; congruence|left; congruence].
  - rewrite IH. split; [auto|]. intros [E|E]; [discriminate|auto].
Qed.

Lemma gots_perm {A} (l l' : list (res A)) : Permutation l l' -> Permutation (gots l) (gots l').
Proof.
  induction 1 as [|[a|] l l' H IH|[a|] [b|] l|]; cbn; auto; try apply Permutation_refl.
  - apply perm_swap.
  - eapply perm_trans; eassumption.
Qed.

(** ** What the managers know *)

(** [g] knows everything that [ds] tells about [L]. *)
Record knows (L : layout) (ds : list (option label)) (g : mgr) : Prop := Knows {
  k_ok : zm_ok (g_devices g) /\ zm_ok (g_mirrors g) /\ zm_ok (g_raids g) /\ zm_ok (g_pools g);
  k_dev : forall u d, In u (all_leaves L) -> zm_get u (g_devices g) = Some d <-> In (Some d) ds /\ l_uuid d = u;
  k_mir : forall m, In m (all_mirrors L) ->
    (has ds m /\ zm_get (lm_uuid m) (g_mirrors g) = Some (MLabel (lm_uuid m) (lm_leaves m)))
    \/ (~ has ds m /\ zm_get (lm_uuid m) (g_mirrors g) = None);
  k_clu : forall c, In c (la_clusters L) ->
    ((exists m, In m (lc_mirrors c) /\ has ds m)
       /\ zm_get (lc_uuid c) (g_raids g) = Some (RLabel (lc_null c) (lc_uuid c) (map lm_uuid (lc_mirrors c))))
    \/ (~ (exists m, In m (lc_mirrors c) /\ has ds m) /\ zm_get (lc_uuid c) (g_raids g) = None);
  k_pool : ((exists m, In m (all_mirrors L) /\ has ds m)
       /\ zm_get (la_uuid L) (g_pools g) = Some (PLabel (la_name L) (la_uuid L) (map lc_uuid (la_clusters L))))
    \/ (~ (exists m, In m (all_mirrors L) /\ has ds m) /\ zm_get (la_uuid L) (g_pools g) = None) }.

Lemma in_mirrors L c m : In c (la_clusters L) -> In m (lc_mirrors c) -> In m (all_mirrors L).
Proof. intros Hc Hm. apply in_flat_map. eauto. Qed.
Lemma in_leaves L m u : In m (all_mirrors L) -> In u (lm_leaves m) -> In u (all_leaves L).
Proof. intros Hm Hu. apply in_flat_map. eauto. Qed.

Lemma nodup_flat {A B} (f : A -> list B) l : NoDup (flat_map f l) -> forall a b x, In a l -> In b l -> In x (f a) -> In x (f b) -> a <> b -> False.
Proof.
  induction l as [|c l IH]; cbn; intros HN a b x Ha Hb Hxa Hxb Hab; [contradiction|].
  assert (HN2 : NoDup (flat_map f l)).
  { clear - HN. induction (f c) as [|y r IHr]; [assumption|]. inversion HN; auto. }
  assert (Hd : forall y, In y (f c) -> In y (flat_map f l) -> False).
  { clear - HN. induction (f c) as [|y r IHr]; cbn; [tauto|]. inversion HN as [|? ? H1 H2]; subst. intros z [<-|Hz] Hz2; [apply H1, in_or_app; auto|eauto]. }
  destruct Ha as [->|Ha], Hb as [->|Hb].
  - contradiction.
  - apply (Hd x Hxa). apply in_flat_map. eauto.
  - apply (Hd x Hxb). apply in_flat_map. eauto.
  - exact (IH HN2 a b x Ha Hb Hxa Hxb Hab).
Qed.

Lemma nodup_flat_each {A B} (f : A -> list B) l a : NoDup (flat_map f l) -> In a l -> NoDup (f a).
Proof.
  induction l as [|c l IH]; cbn; intros HN Ha; [contradiction|].
  assert (HN2 : NoDup (flat_map f l) /\ NoDup (f c)).
  { clear - HN. induction (f c) as [|y r IHr]; [split; [assumption|constructor]|]. inversion HN as [|? ? H1 H2]; subst.
    destruct (IHr H2) as [I1 I2]. split; [assumption|]. constructor; [|assumption]. intros Hy. apply H1, in_or_app. auto. }
  destruct Ha as [->|Ha]; [apply HN2|apply IH; tauto].
Qed.

Lemma nodup_map_inj {A B} (f : A -> B) l a b : NoDup (map f l) -> In a l -> In b l -> f a = f b -> a = b.
Proof.
  induction l as [|c l IH]; cbn; intros HN Ha Hb E; [contradiction|]. inversion HN as [|? ? H1 H2]; subst.
  destruct Ha as [->|Ha], Hb as [->|Hb]; auto.
  - exfalso. apply H1. rewrite E. now apply in_map.
  - exfalso. apply H1. rewrite <- E. now apply in_map.
Qed.

(** The mirror of a leaf, and the cluster of a mirror, are unique. *)
Lemma mirror_unique L m m' u : wf L -> In m (all_mirrors L) -> In m' (all_mirrors L) -> In u (lm_leaves m) -> In u (lm_leaves m') -> m = m'.
Proof.
  intros (_ & HM & HL & _) Hm Hm' Hu Hu'.
  destruct (Z.eq_dec (lm_uuid m) (lm_uuid m')) as [E|E]; [exact (nodup_map_inj _ _ _ _ HM Hm Hm' E)|].
  exfalso. apply (nodup_flat lm_leaves (all_mirrors L) HL m m' u Hm Hm' Hu Hu'). congruence.
Qed.

Lemma tasted_snoc ds d : tasted (ds ++ [d]) = taste (tasted ds) d.
Proof. unfold tasted. now rewrite fold_left_app. Qed.

Lemma cluster_unique L c c' m : wf L -> In c (la_clusters L) -> In c' (la_clusters L) -> In m (lc_mirrors c) -> In m (lc_mirrors c') -> c = c'.
Proof.
  intros (HC & HM & _) Hc Hc' Hm Hm'.
  destruct (Z.eq_dec (lc_uuid c) (lc_uuid c')) as [E|E]; [exact (nodup_map_inj _ _ _ _ HC Hc Hc' E)|].
  exfalso. apply (nodup_flat lc_mirrors (la_clusters L) (NoDup_map_inv _ _ HM) c c' m Hc Hc' Hm Hm'). congruence.
Qed.

Lemma tasted_knows L ds : wf L -> found L ds -> knows L ds (tasted ds).
Proof.
  intros HW. induction ds as [|x ds IH] using rev_ind; intros HF.
  - unfold tasted; cbn. constructor; cbn.
    + repeat split; constructor.
    + intros u d _. split; [discriminate|intros [[] _]].
    + intros m _. right. split; [intros (d & [] & _)|reflexivity].
    + intros c _. right. split; [intros (m & _ & d & [] & _)|reflexivity].
    + right. split; [intros (m & _ & d & [] & _)|reflexivity].
  - assert (HF0 : found L ds).
    { destruct HF as [F1 F2]. split; [intros d Hd; apply F1, in_or_app; auto|].
      intros d d' Hd Hd'. apply F2; apply in_or_app; auto. }
    specialize (IH HF0). rewrite tasted_snoc. destruct x as [d|].
    2:{ assert (Hin : forall e, In (Some e) (ds ++ [None]) <-> In (Some e) ds).
        { intros e. rewrite in_app_iff. cbn. split; [intros [?|[?|[]]]; [assumption|discriminate]|auto]. }
        assert (Hh : forall m, has (ds ++ [None]) m <-> has ds m).
        { intros m. unfold has. split; intros (e & He & Hm); exists e; [apply Hin in He|apply <- Hin in He]; auto. }
        destruct IH as [k1 k2 k3 k4 k5]. constructor; cbn [taste]; auto.
        - intros u e Hu. rewrite Hin. auto.
        - intros m Hm. rewrite Hh. auto.
        - intros c Hc. destruct (k4 c Hc) as [[(m & Hm & H1) H2]|[H1 H2]]; [left|right]; (split; [|assumption]).
          + exists m. now rewrite Hh.
          + intros (m & Hm & Hx). apply H1. exists m. now rewrite <- Hh.
        - destruct k5 as [[(m & Hm & H1) H2]|[H1 H2]]; [left|right]; (split; [|assumption]).
          + exists m. now rewrite Hh.
          + intros (m & Hm & Hx). apply H1. exists m. now rewrite <- Hh. }
    assert (Hin : forall e, In (Some e) (ds ++ [Some d]) <-> In (Some e) ds \/ e = d).
    { intros e. rewrite in_app_iff. cbn. split; [intros [?|[[= ->]|[]]]; auto|intros [?| ->]; auto]. }
    assert (Hh : forall m, has (ds ++ [Some d]) m <-> has ds m \/ In (l_uuid d) (lm_leaves m)).
    { intros m. unfold has. split.
      - intros (e & He & Hm). apply Hin in He. destruct He as [He| ->]; eauto.
      - intros [(e & He & Hm)|Hm]; [exists e|exists d]; rewrite Hin; auto. }
    destruct HF as [HF1 HF2].
    assert (Hd : In (Some d) (ds ++ [Some d])) by (apply Hin; auto).
    destruct IH as [(o1 & o2 & o3 & o4) k2 k3 k4 k5].
    constructor; cbn [taste g_devices g_mirrors g_raids g_pools].
    + repeat split; now apply zm_ok_set.
    + intros u e Hu. rewrite zm_get_set by assumption. rewrite Hin. destruct (Z.eqb_spec u (l_uuid d)) as [->|Hn].
      * split; [intros [= <-]; auto|]. intros [[He| ->] E]; [|reflexivity].
        f_equal. apply HF2; [assumption|apply Hin; auto|congruence].
      * rewrite k2 by assumption. split; [tauto|]. intros [[He| ->] E]; [auto|congruence].
    + intros m Hm. rewrite zm_get_set by assumption.
      destruct (HF1 d Hd) as [(c' & m' & Hc' & Hm' & Hu & Ht & E1 & E2 & E3)|(N1 & N2 & N3 & N4)].
      * pose proof (in_mirrors _ _ _ Hc' Hm') as Hm2. rewrite E1. cbn [ml_uuid].
        destruct (Z.eqb_spec (lm_uuid m) (lm_uuid m')) as [E|E].
        -- destruct HW as (_ & HM & _). pose proof (nodup_map_inj _ _ _ _ HM Hm Hm2 E) as ->.
           left. split; [apply Hh; auto|reflexivity].
        -- destruct (k3 m Hm) as [[H1 H2]|[H1 H2]]; [left|right]; (split; [|assumption]).
           ++ apply Hh. auto.
           ++ rewrite Hh. intros [H|H]; [contradiction|]. apply E. f_equal. exact (mirror_unique _ _ _ _ HW Hm Hm2 H Hu).
      * destruct (Z.eqb_spec (lm_uuid m) (ml_uuid (l_mirror d))) as [E|E]; [exfalso; apply N2; rewrite <- E; now apply in_map|].
        destruct (k3 m Hm) as [[H1 H2]|[H1 H2]]; [left|right]; (split; [|assumption]).
        -- apply Hh. auto.
        -- rewrite Hh. intros [H|H]; [contradiction|]. apply N1. exact (in_leaves _ _ _ Hm H).
    + intros c Hc. rewrite zm_get_set by assumption.
      destruct (HF1 d Hd) as [(c' & m' & Hc' & Hm' & Hu & Ht & E1 & E2 & E3)|(N1 & N2 & N3 & N4)].
      * pose proof (in_mirrors _ _ _ Hc' Hm') as Hm2. rewrite E2. cbn [rl_uuid].
        destruct (Z.eqb_spec (lc_uuid c) (lc_uuid c')) as [E|E].
        -- pose proof HW as (HC & _). pose proof (nodup_map_inj _ _ _ _ HC Hc Hc' E) as ->.
           left. split; [exists m'; rewrite Hh; auto|reflexivity].
        -- destruct (k4 c Hc) as [[(m & Hm & H1) H2]|[H1 H2]]; [left|right]; (split; [|assumption]).
           ++ exists m. rewrite Hh. auto.
           ++ intros (m & Hm & H). rewrite Hh in H. destruct H as [H|H]; [apply H1; eauto|].
              pose proof (mirror_unique _ _ _ _ HW (in_mirrors _ _ _ Hc Hm) Hm2 H Hu) as ->.
              apply E. f_equal. exact (cluster_unique _ _ _ _ HW Hc Hc' Hm Hm').
      * destruct (Z.eqb_spec (lc_uuid c) (rl_uuid (l_raid d))) as [E|E]; [exfalso; apply N3; rewrite <- E; now apply in_map|].
        destruct (k4 c Hc) as [[(m & Hm & H1) H2]|[H1 H2]]; [left|right]; (split; [|assumption]).
        -- exists m. rewrite Hh. auto.
        -- intros (m & Hm & H). rewrite Hh in H. destruct H as [H|H]; [apply H1; eauto|]. apply N1.
           exact (in_leaves _ _ _ (in_mirrors _ _ _ Hc Hm) H).
    + rewrite zm_get_set by assumption.
      destruct (HF1 d Hd) as [(c' & m' & Hc' & Hm' & Hu & Ht & E1 & E2 & E3)|(N1 & N2 & N3 & N4)].
      * rewrite E3. cbn [pl_uuid]. rewrite Z.eqb_refl. left. split; [|reflexivity].
        exists m'. rewrite Hh. split; [exact (in_mirrors _ _ _ Hc' Hm')|auto].
      * destruct (Z.eqb_spec (la_uuid L) (pl_uuid (l_pool d))) as [E|E]; [congruence|].
        destruct k5 as [[(m & Hm & H1) H2]|[H1 H2]]; [left|right]; (split; [|assumption]).
        -- exists m. rewrite Hh. auto.
        -- intros (m & Hm & H). rewrite Hh in H. destruct H as [H|H]; [apply H1; eauto|]. apply N1. exact (in_leaves _ _ _ Hm H).
Qed.

(** ** Importing *)

Definition oks (g : mgr) : Prop := zm_ok (g_devices g) /\ zm_ok (g_mirrors g) /\ zm_ok (g_raids g) /\ zm_ok (g_pools g).

(** [g'] differs from [g] in the given leaves, mirrors and clusters only. *)
Definition but (D M R : list Z) (g g' : mgr) : Prop :=
  oks g' /\ (forall u, ~ In u D -> zm_get u (g_devices g') = zm_get u (g_devices g))
  /\ (forall u, ~ In u M -> zm_get u (g_mirrors g') = zm_get u (g_mirrors g))
  /\ (forall u, ~ In u R -> zm_get u (g_raids g') = zm_get u (g_raids g))
  /\ g_pools g' = g_pools g.

Lemma but_refl g : oks g -> but [] [] [] g g.
Proof. intros H. repeat split; try apply H; auto. Qed.

Lemma but_trans D M R D' M' R' g g1 g2 : but D M R g g1 -> but D' M' R' g1 g2 -> but (D ++ D') (M ++ M') (R ++ R') g g2.
Proof.
  intros (_ & A1 & A2 & A3 & A4) (O & B1 & B2 & B3 & B4). split; [exact O|]. repeat split.
  - intros u Hu. rewrite B1, A1; [reflexivity| |]; intros H; apply Hu, in_or_app; auto.
  - intros u Hu. rewrite B2, A2; [reflexivity| |]; intros H; apply Hu, in_or_app; auto.
  - intros u Hu. rewrite B3, A3; [reflexivity| |]; intros H; apply Hu, in_or_app; auto.
  - congruence.
Qed.

Lemma but_more D M R D' M' R' g g' : incl D D' -> incl M M' -> incl R R' -> but D M R g g' -> but D' M' R' g g'.
Proof. intros I1 I2 I3 (O & A1 & A2 & A3 & A4). split; [exact O|]. repeat split; auto. Qed.

Definition leaf_res (g : mgr) (u : Z) : res label := match zm_get u (g_devices g) with Some d => Got d | None => ENOENT end.

Lemma import_leaves_spec us : forall g, oks g -> NoDup us ->
  exists g', import_leaves g us = (g', map (leaf_res g) us) /\ but us [] [] g g'.
Proof.
  induction us as [|u us IH]; intros g HO HN; [exists g; split; [reflexivity|now apply but_refl]|].
  inversion HN as [|? ? H1 H2]; subst. cbn [import_leaves map]. unfold import_leaf, leaf_res at 1.
  destruct (zm_get u (g_devices g)) as [d|] eqn:E.
  - destruct HO as (O1 & O2 & O3 & O4).
    set (g1 := Mgr (zm_del u (g_devices g)) (g_mirrors g) (g_raids g) (g_pools g)).
    assert (B : but [u] [] [] g g1).
    { split; [repeat split; try assumption; now apply zm_ok_del|]. repeat split; auto.
      intros w Hw. unfold g1; cbn [g_devices]. rewrite zm_get_del by assumption.
      destruct (Z.eqb_spec w u) as [->|]; [exfalso; apply Hw; left; reflexivity|reflexivity]. }
    destruct (IH g1 (proj1 B) H2) as (g' & E' & B'). rewrite E'. exists g'. split.
    + f_equal. f_equal. apply map_ext_in. intros w Hw. unfold leaf_res. destruct B as (_ & B1 & _). rewrite B1; [reflexivity|].
      intros [->|[]]. contradiction.
    + exact (but_trans _ _ _ _ _ _ _ _ _ B B').
  - destruct (IH g HO H2) as (g' & E' & B'). rewrite E'. exists g'. split; [reflexivity|].
    refine (but_more _ _ _ _ _ _ _ _ _ _ _ B'); [intros w Hw; now right|intros w Hw; exact Hw|intros w Hw; exact Hw].
Qed.

Definition latest (ds : list (option label)) (m : lmirror) (l : label) : Prop :=
  In (Some l) ds /\ In (l_uuid l) (lm_leaves m) /\ forall e, In (Some e) ds -> In (l_uuid e) (lm_leaves m) -> l_txg e <= l_txg l.

Definition mir_known (ds : list (option label)) (g : mgr) (m : lmirror) : Prop :=
  (forall u d, In u (lm_leaves m) -> zm_get u (g_devices g) = Some d <-> In (Some d) ds /\ l_uuid d = u)
  /\ ((has ds m /\ zm_get (lm_uuid m) (g_mirrors g) = Some (MLabel (lm_uuid m) (lm_leaves m)))
      \/ (~ has ds m /\ zm_get (lm_uuid m) (g_mirrors g) = None)).

Definition some_has ds (c : lcluster) : Prop := exists m, In m (lc_mirrors c) /\ has ds m.

Definition clu_known (ds : list (option label)) (g : mgr) (c : lcluster) : Prop :=
  ((some_has ds c /\ zm_get (lc_uuid c) (g_raids g) = Some (RLabel (lc_null c) (lc_uuid c) (map lm_uuid (lc_mirrors c))))
   \/ (~ some_has ds c /\ zm_get (lc_uuid c) (g_raids g) = None))
  /\ Forall (mir_known ds g) (lc_mirrors c).

Lemma mir_known_but ds D M R g g' m : but D M R g g' -> (forall u, In u (lm_leaves m) -> ~ In u D) -> ~ In (lm_uuid m) M ->
  mir_known ds g m -> mir_known ds g' m.
Proof.
  intros (_ & B1 & B2 & _) HD HM [K1 K2]. split.
  - intros u d Hu. rewrite B1 by auto. auto.
  - rewrite B2 by assumption. exact K2.
Qed.

Definition mres_ok ds (m : lmirror) (r : res (mirror * label)) : Prop :=
  match r with Got (x, l) => has ds m /\ mirror_ok ds m x /\ latest ds m l | ENOENT => ~ has ds m end.

Definition cres_ok ds (c : lcluster) (r : res (raid * label)) : Prop :=
  match r with Got (x, l) => some_has ds c /\ cluster_ok ds c x /\ (exists m, In m (lc_mirrors c) /\ latest ds m l) | ENOENT => ~ some_has ds c end.

Lemma max_spec l : (forall x, In x l -> x <= fold_right Z.max 0 l) /\ (l <> [] -> (forall x, In x l -> 0 <= x) -> In (fold_right Z.max 0 l) l).
Proof.
  induction l as [|a l [IH1 IH2]]; cbn [fold_right]; [split; [intros x []|congruence]|]. split.
  - intros x [<-|Hx]; [lia|]. specialize (IH1 x Hx). lia.
  - intros _ Hp. destruct l as [|b l]; [cbn; left; specialize (Hp a (or_introl eq_refl)); lia|].
    destruct (Z.max_spec a (fold_right Z.max 0 (b :: l))) as [[_ E]|[_ E]]; rewrite E; [right|left; reflexivity].
    apply IH2; [discriminate|]. intros x Hx. apply Hp. now right.
Qed.

Section World.
Context (L : layout) (ds : list (option label)) (T : timing).
Hypotheses (HW : wf L) (HF : found L ds) (HT : fair T).

Lemma disk_of c m d : In c (la_clusters L) -> In m (lc_mirrors c) -> In (Some d) ds -> In (l_uuid d) (lm_leaves m) ->
  l_mirror d = MLabel (lm_uuid m) (lm_leaves m)
  /\ l_raid d = RLabel (lc_null c) (lc_uuid c) (map lm_uuid (lc_mirrors c))
  /\ l_pool d = PLabel (la_name L) (la_uuid L) (map lc_uuid (la_clusters L)) /\ 0 <= l_txg d.
Proof.
  intros Hc Hm Hd Hu. pose proof (in_mirrors _ _ _ Hc Hm) as Hm1.
  destruct (proj1 HF d Hd) as [(c' & m' & Hc' & Hm' & Hu' & Ht & E1 & E2 & E3)|(N1 & _)].
  - pose proof (mirror_unique _ _ _ _ HW Hm1 (in_mirrors _ _ _ Hc' Hm') Hu Hu') as ->.
    pose proof (cluster_unique _ _ _ _ HW Hc Hc' Hm Hm') as ->. auto.
  - exfalso. apply N1. exact (in_leaves _ _ _ Hm1 Hu).
Qed.

Lemma leaves_nodup m : In m (all_mirrors L) -> NoDup (lm_leaves m).
Proof. intros Hm. destruct HW as (_ & _ & HL & _). exact (nodup_flat_each lm_leaves _ _ HL Hm). Qed.

(** Opening a mirror from the disks that were found of it. *)
Lemma mirror_open_spec c m es : In c (la_clusters L) -> In m (lc_mirrors c) -> es <> [] -> NoDup (map l_uuid es) ->
  (forall d, In d es <-> In (Some d) ds /\ In (l_uuid d) (lm_leaves m)) ->
  exists x l, mirror_open (lm_uuid m) es = Some (x, l) /\ mirror_ok ds m x /\ latest ds m l.
Proof.
  intros Hc Hm Hne HN Hes. pose proof (in_mirrors _ _ _ Hc Hm) as Hm1.
  assert (Hlab : forall d, In d es -> l_mirror d = MLabel (lm_uuid m) (lm_leaves m) /\ 0 <= l_txg d).
  { intros d Hd. apply Hes in Hd. destruct Hd as [Hd Hu]. pose proof (disk_of _ _ _ Hc Hm Hd Hu). tauto. }
  unfold mirror_open. set (hi := fold_right Z.max 0 (map l_txg es)).
  destruct (max_spec (map l_txg es)) as [M1 M2]. fold hi in M1, M2.
  assert (Hhi : forall d, In d es -> l_txg d <= hi) by (intros d Hd; apply M1; now apply in_map).
  assert (Hin : In hi (map l_txg es)).
  { apply M2; [intros E; apply map_eq_nil in E; contradiction|]. intros x Hx. apply in_map_iff in Hx. destruct Hx as (d & <- & Hd). now apply Hlab. }
  replace (forallb (fun d => ml_uuid (l_mirror d) =? lm_uuid m) es) with true.
  2:{ symmetry. apply forallb_forall. intros d Hd. destruct (Hlab d Hd) as [-> _]. apply Z.eqb_refl. }
  cbn [check obind].
  destruct (find (fun d => l_txg d =? hi) es) as [l|] eqn:EF.
  2:{ exfalso. apply in_map_iff in Hin. destruct Hin as (d & E & Hd). pose proof (find_none _ _ EF _ Hd) as H. cbn beta in H.
      rewrite E, Z.eqb_refl in H. discriminate. }
  apply find_some in EF. destruct EF as [Hl Et]. apply Z.eqb_eq in Et.
  cbn [obind]. destruct (Hlab l Hl) as [El _]. rewrite El. cbn [ml_children ml_uuid].
  rewrite open_children_eq by (try apply collect_ok; now apply leaves_nodup).
  set (cs := map _ (lm_leaves m)).
  assert (Hcs : Forall (leaf_ok ds m) cs).
  { apply Forall_forall. intros x Hx. unfold cs in Hx. apply in_map_iff in Hx. destruct Hx as (u & <- & Hu). unfold leaf_ok. cbn [snd fst].
    destruct (zm_get u (collect l_uuid es)) as [d|] eqn:E.
    - apply collect_get in E; [|assumption]. destruct E as [Hd Ed]. pose proof (proj1 (Hes d) Hd) as [Hd1 Hd2].
      destruct (Z.eqb_spec (l_txg d) hi) as [Eh|Eh].
      + repeat split; auto. intros e He Hue. rewrite Eh. apply Hhi. apply Hes. auto.
      + repeat split; auto. exists l. destruct (proj1 (Hes l) Hl) as [Hl1 Hl2]. repeat split; auto. specialize (Hhi d Hd). lia.
    - intros d Hd Ed. assert (Hd2 : In d es) by (apply Hes; rewrite Ed; auto).
      apply (proj1 (collect_none l_uuid es u HN) E d Hd2 Ed). }
  replace (existsb is_present cs) with true.
  2:{ symmetry. apply existsb_exists. exists (l_uuid l, CPresent l). split; [|reflexivity].
      destruct (proj1 (Hes l) Hl) as [Hl1 Hl2]. unfold cs. apply in_map_iff. exists (l_uuid l). split; [|assumption].
      assert (G : zm_get (l_uuid l) (collect l_uuid es) = Some l) by (apply collect_get; auto).
      rewrite G, Et, Z.eqb_refl. reflexivity. }
  cbn [check obind]. eexists _, _. split; [reflexivity|]. split.
  - split; [reflexivity|]. cbn [m_children]. split; [|assumption]. unfold cs. rewrite map_map. cbn [fst]. apply map_id.
  - destruct (proj1 (Hes l) Hl) as [Hl1 Hl2]. split; [assumption|]. split; [assumption|].
    intros e He Hue. rewrite Et. apply Hhi. apply Hes. auto.
Qed.

Lemma import_mirror_spec c m g : In c (la_clusters L) -> In m (lc_mirrors c) -> oks g -> mir_known ds g m ->
  exists g' r, import_mirror T g (lm_uuid m) = Some (g', r) /\ but (lm_leaves m) [lm_uuid m] [] g g' /\ mres_ok ds m r.
Proof.
  intros Hc Hm HO [K1 K2]. pose proof (in_mirrors _ _ _ Hc Hm) as Hm1. unfold import_mirror.
  destruct K2 as [[Hh E]|[Hh E]]; rewrite E.
  2:{ exists g, ENOENT. split; [reflexivity|]. split; [|assumption].
      refine (but_more _ _ _ _ _ _ _ _ _ _ _ (but_refl g HO)); intros x []. }
  destruct HO as (O1 & O2 & O3 & O4).
  set (g1 := Mgr (g_devices g) (zm_del (lm_uuid m) (g_mirrors g)) (g_raids g) (g_pools g)). cbn [ml_children].
  assert (B : but [] [lm_uuid m] [] g g1).
  { split; [repeat split; try assumption; now apply zm_ok_del|]. repeat split; auto.
    intros w Hw. unfold g1; cbn [g_mirrors]. rewrite zm_get_del by assumption.
    destruct (Z.eqb_spec w (lm_uuid m)) as [->|]; [exfalso; apply Hw; left; reflexivity|reflexivity]. }
  destruct (import_leaves_spec (lm_leaves m) g1 (proj1 B) (leaves_nodup m Hm1)) as (g2 & E2 & B2). rewrite E2.
  pose proof (but_trans _ _ _ _ _ _ _ _ _ B B2) as B3. rewrite app_nil_r in B3. cbn [app] in B3.
  set (rs := map (leaf_res g1) (lm_leaves m)).
  pose proof (gots_perm _ _ (proj1 HT (lm_uuid m) rs)) as HP.
  set (es := gots (t_leaves T (lm_uuid m) rs)) in *.
  assert (Hrs : forall d, In d (gots rs) <-> In (Some d) ds /\ In (l_uuid d) (lm_leaves m)).
  { intros d. rewrite gots_in. unfold rs. rewrite in_map_iff. unfold leaf_res. cbn [g1 g_devices]. split.
    - intros (u & Hu & Hin). destruct (zm_get u (g_devices g)) as [d'|] eqn:EG; [|discriminate]. injection Hu as ->.
      apply K1 in EG; [|assumption]. destruct EG as [H1 <-]. auto.
    - intros [H1 H2]. exists (l_uuid d). split; [|assumption].
      assert (EG : zm_get (l_uuid d) (g_devices g) = Some d) by (apply K1; auto). now rewrite EG. }
  assert (HN : NoDup (map l_uuid (gots rs))).
  { unfold rs. pose proof (leaves_nodup m Hm1) as HN. assert (Hsub : incl (lm_leaves m) (lm_leaves m)) by (intros x; auto).
    revert HN Hsub. generalize (lm_leaves m) at 1 2 4. intros us. induction us as [|u us IH]; intros HN Hsub; [constructor|].
    inversion HN as [|? ? H1 H2]; subst. assert (IHs : NoDup (map l_uuid (gots (map (leaf_res g1) us)))) by (apply IH; [assumption|intros x Hx; apply Hsub; now right]).
    cbn [map]. unfold leaf_res at 1. cbn [g1 g_devices]. destruct (zm_get u (g_devices g)) as [d|] eqn:EG; cbn [gots map]; [|assumption].
    pose proof (proj1 (K1 u d (Hsub u (or_introl eq_refl))) EG) as [_ Ed]. constructor; [|assumption].
    rewrite Ed. intros Hin. apply in_map_iff in Hin. destruct Hin as (e & Ee & He). apply gots_in, in_map_iff in He.
    destruct He as (w & Ew & Hw). unfold leaf_res in Ew. cbn [g1 g_devices] in Ew.
    destruct (zm_get w (g_devices g)) as [e'|] eqn:EG2; [|discriminate]. injection Ew as ->.
    apply (K1 w e (Hsub w (or_intror Hw))) in EG2. destruct EG2 as [_ EG2]. apply H1. congruence. }
  assert (Hes : forall d, In d es <-> In (Some d) ds /\ In (l_uuid d) (lm_leaves m)).
  { intros d. rewrite <- Hrs. split; intros H; [exact (Permutation_in _ HP H)|exact (Permutation_in _ (Permutation_sym HP) H)]. }
  assert (HNes : NoDup (map l_uuid es)) by exact (Permutation_NoDup (Permutation_map l_uuid (Permutation_sym HP)) HN).
  destruct es as [|d0 es0] eqn:EE.
  - exfalso. destruct Hh as (d & H1 & H2). apply (proj2 (Hes d)). auto.
  - destruct (mirror_open_spec c m (d0 :: es0) Hc Hm ltac:(discriminate) HNes Hes) as (x & l & EO & Hx & Hl).
    rewrite EO. cbn [obind]. exists g2, (Got (x, l)). split; [reflexivity|]. split; [assumption|]. split; [|split]; assumption.
Qed.

Lemma nodup_flat_tail {A B} (f : A -> list B) a l : NoDup (flat_map f (a :: l)) -> NoDup (flat_map f l) /\ (forall x, In x (f a) -> ~ In x (flat_map f l)).
Proof.
  cbn. intros HN. split.
  - induction (f a) as [|y r IHr]; [assumption|]. inversion HN; auto.
  - induction (f a) as [|y r IHr]; cbn; [tauto|]. inversion HN as [|? ? H1 H2]; subst. intros z [<-|Hz] Hz2; [apply H1, in_or_app; auto|exact (IHr H2 z Hz Hz2)].
Qed.

Lemma import_mirrors_spec c ms : In c (la_clusters L) -> (forall m, In m ms -> In m (lc_mirrors c)) ->
  NoDup (flat_map lm_leaves ms) -> NoDup (map lm_uuid ms) ->
  forall g, oks g -> Forall (mir_known ds g) ms ->
  exists g' rs, import_mirrors T g (map lm_uuid ms) = Some (g', rs) /\ but (flat_map lm_leaves ms) (map lm_uuid ms) [] g g' /\ Forall2 (mres_ok ds) ms rs.
Proof.
  intros Hc. induction ms as [|m ms IH]; intros Hsub HN1 HN2 g HO HK.
  - exists g, []. split; [reflexivity|]. split; [now apply but_refl|constructor].
  - inversion HK as [|? ? K0 K1]; subst. destruct (nodup_flat_tail _ _ _ HN1) as [HN1a HN1b].
    inversion HN2 as [|? ? HN2b HN2a]; subst.
    destruct (import_mirror_spec c m g Hc (Hsub m (or_introl eq_refl)) HO K0) as (g1 & r & E1 & B1 & R1).
    destruct (IH (fun m Hm => Hsub m (or_intror Hm)) HN1a HN2a g1 (proj1 B1)) as (g2 & rs & E2 & B2 & R2).
    { apply Forall_forall. intros m' Hm'. refine (mir_known_but _ _ _ _ _ _ _ B1 _ _ (proj1 (Forall_forall _ _) K1 m' Hm')).
      - intros u Hu Hu2. apply (HN1b u Hu2). apply in_flat_map. eauto.
      - intros [E|[]]. apply HN2b. rewrite E. now apply in_map. }
    exists g2, (r :: rs). cbn [map import_mirrors]. rewrite E1. cbn [obind]. rewrite E2. cbn [obind]. split; [reflexivity|].
    split; [exact (but_trans _ _ _ _ _ _ _ _ _ B1 B2)|]. constructor; assumption.
Qed.

Lemma Forall2_in_r {A B} (P : A -> B -> Prop) l l' b : Forall2 P l l' -> In b l' -> exists a, In a l /\ P a b.
Proof. induction 1; cbn; [tauto|]. intros [<-|Hb]; [eauto|]. destruct (IHForall2 Hb) as (a & H1 & H2). eauto. Qed.
Lemma Forall2_in_l {A B} (P : A -> B -> Prop) l l' a : Forall2 P l l' -> In a l -> exists b, In b l' /\ P a b.
Proof. induction 1; cbn; [tauto|]. intros [<-|Hb]; [eauto|]. destruct (IHForall2 Hb) as (b & H1 & H2). eauto. Qed.

Lemma gots_nodup {A B} (P : A -> res B -> Prop) (f : A -> Z) (h : B -> Z) l rs : (forall a b, P a (Got b) -> h b = f a) ->
  Forall2 P l rs -> NoDup (map f l) -> NoDup (map h (gots rs)).
Proof.
  intros HP HF2. induction HF2 as [|a r l rs Pa HF2 IH]; intros HN; [constructor|]. inversion HN as [|? ? H1 H2]; subst.
  destruct r as [b|]; cbn [gots map]; [|auto]. constructor; [|auto].
  rewrite (HP a b Pa). intros Hin. apply in_map_iff in Hin. destruct Hin as (b' & E & Hb'). apply gots_in in Hb'.
  destruct (Forall2_in_r _ _ _ _ HF2 Hb') as (a' & Ha' & Pa'). apply H1. rewrite <- E, (HP a' b' Pa'). now apply in_map.
Qed.

(** Opening a cluster from the mirrors that were found of it. *)
Lemma raid_open_spec c rs ps : In c (la_clusters L) -> Forall2 (mres_ok ds) (lc_mirrors c) rs -> Permutation ps (gots rs) -> ps <> [] ->
  exists x l, raid_open (lc_uuid c) ps = Some (x, l) /\ cluster_ok ds c x /\ (exists m, In m (lc_mirrors c) /\ latest ds m l).
Proof.
  intros Hc HR HP Hne.
  assert (Hps : forall x l, In (x, l) ps -> exists m, In m (lc_mirrors c) /\ mres_ok ds m (Got (x, l))).
  { intros x l Hin. apply (Permutation_in _ HP) in Hin. apply gots_in in Hin. exact (Forall2_in_r _ _ _ _ HR Hin). }
  assert (Hlab : forall x l, In (x, l) ps -> l_raid l = RLabel (lc_null c) (lc_uuid c) (map lm_uuid (lc_mirrors c))).
  { intros x l Hin. destruct (Hps x l Hin) as (m & Hm & (_ & _ & (Hl & Hu & _))). pose proof (disk_of _ _ _ Hc Hm Hl Hu). tauto. }
  assert (HNm : NoDup (map lm_uuid (lc_mirrors c))).
  { destruct HW as (_ & HM & _). clear - HM Hc. revert HM. unfold all_mirrors.
    induction (la_clusters L) as [|c0 cs IH]; [contradiction|]. cbn. rewrite map_app. intros HN. destruct Hc as [->|Hc].
    - clear - HN. induction (map lm_uuid (lc_mirrors c)) as [|x r IHr]; [constructor|]. cbn in HN. inversion HN as [|? ? H1 H2]; subst.
      constructor; [|auto]. intros Hx. apply H1, in_or_app. auto.
    - apply IH; [assumption|]. clear - HN. induction (map lm_uuid (lc_mirrors c0)) as [|x r IHr]; [assumption|]. inversion HN; auto. }
  assert (HN : NoDup (map (fun p : mirror * label => m_uuid (fst p)) ps)).
  { apply (Permutation_NoDup (Permutation_map _ (Permutation_sym HP))).
    refine (gots_nodup (mres_ok ds) lm_uuid _ _ _ _ HR HNm). intros a [x l] (_ & (E & _) & _). exact E. }
  unfold raid_open.
  replace (forallb (fun p => rl_uuid (l_raid (snd p)) =? lc_uuid c) ps) with true.
  2:{ symmetry. apply forallb_forall. intros [x l] Hin. cbn [snd]. rewrite (Hlab x l Hin). apply Z.eqb_refl. }
  cbn [check obind]. destruct ps as [|[x0 l0] ps0] eqn:EP; [contradiction|]. rewrite <- EP in *.
  assert (H0 : In (x0, l0) ps) by (rewrite EP; left; reflexivity).
  rewrite (Hlab x0 l0 H0). cbn [rl_null rl_uuid rl_children].
  destruct (Hps x0 l0 H0) as (m0 & Hm0 & (Hh0 & Hx0 & Hl0)).
  destruct (lc_null c) eqn:EN.
  - destruct HW as (_ & _ & _ & _ & HNull). destruct (HNull c Hc EN) as (m & Em).
    rewrite Em in HR. inversion HR as [|? r ? rs' R1 R2]; subst. inversion R2; subst.
    assert (Hlen : length ((x0, l0) :: ps0) = 1%nat).
    { pose proof (Permutation_length HP) as PL. rewrite PL. destruct r; cbn in *; [reflexivity|]. cbn in PL. discriminate. }
    destruct ps0; [|discriminate]. cbn. eexists _, _. split; [reflexivity|]. rewrite Em in Hm0. destruct Hm0 as [<-|[]].
    split; [|exists m; rewrite Em; split; [now left|assumption]].
    cbn. rewrite EN. split; [reflexivity|]. split; [reflexivity|]. exists m. auto.
  - rewrite open_members_eq by (try apply collect_ok; assumption).
    set (cs := map _ (map lm_uuid (lc_mirrors c))).
    assert (Hcs : forall m x, In m (lc_mirrors c) -> zm_get (lm_uuid m) (collect (fun p : mirror * label => m_uuid (fst p)) ps) = Some x -> In x ps /\ mres_ok ds m (Got x)).
    { intros m [x l] Hm E. apply collect_get in E; [|assumption]. destruct E as [Hin Eu]. cbn [fst] in Eu.
      destruct (Hps x l Hin) as (m' & Hm' & Hok). pose proof Hok as (_ & (Eu' & _) & _).
      pose proof (nodup_map_inj lm_uuid _ m m' HNm Hm Hm' ltac:(congruence)) as ->. auto. }
    assert (Hf : Forall2 (member_ok ds) (lc_mirrors c) cs).
    { unfold cs. rewrite map_map. clear cs. assert (Hs : incl (lc_mirrors c) (lc_mirrors c)) by (intros x; auto).
      revert Hs. generalize (lc_mirrors c) at 1 3 4. intros ms. induction ms as [|m ms IH]; intros Hs; [constructor|].
      constructor; [|apply IH; intros x Hx; apply Hs; now right].
      split; [reflexivity|]. cbn [snd].
      destruct (zm_get (lm_uuid m) (collect (fun p => m_uuid (fst p)) ps)) as [[x l]|] eqn:E.
      - destruct (Hcs m (x, l) (Hs m (or_introl eq_refl)) E) as [_ (Hh & Hx & _)]. auto.
      - destruct (Forall2_in_l _ _ _ _ HR (Hs m (or_introl eq_refl))) as ([[x l]|] & Hb & Hok); [|exact Hok].
        exfalso. apply gots_in in Hb. apply (Permutation_in _ (Permutation_sym HP)) in Hb.
        apply (proj1 (collect_none _ ps _ HN) E (x, l) Hb). cbn [fst]. exact (proj1 (proj1 (proj2 Hok))). }
    replace (existsb (fun c => match snd c with Some _ => true | None => false end) cs) with true.
    2:{ symmetry. apply existsb_exists. destruct Hx0 as (Eu0 & _).
        assert (G : zm_get (lm_uuid m0) (collect (fun p : mirror * label => m_uuid (fst p)) ps) = Some (x0, l0)) by (apply collect_get; auto).
        exists (lm_uuid m0, Some x0). split; [|reflexivity]. unfold cs. apply in_map_iff. exists (lm_uuid m0). rewrite G. split; [reflexivity|now apply in_map]. }
    cbn [check obind]. eexists _, _. split; [reflexivity|]. split; [|exists m0; auto].
    cbn. rewrite EN. auto.
Qed.

Lemma clu_known_but D M R g g' c : but D M R g g' -> (forall m u, In m (lc_mirrors c) -> In u (lm_leaves m) -> ~ In u D) ->
  (forall m, In m (lc_mirrors c) -> ~ In (lm_uuid m) M) -> ~ In (lc_uuid c) R -> clu_known ds g c -> clu_known ds g' c.
Proof.
  intros B HD HM HR [K1 K2]. split.
  - destruct B as (_ & _ & _ & B3 & _). rewrite B3 by assumption. exact K1.
  - apply Forall_forall. intros m Hm. refine (mir_known_but _ _ _ _ _ _ _ B (fun u Hu => HD m u Hm Hu) (HM m Hm) (proj1 (Forall_forall _ _) K2 m Hm)).
Qed.

Definition clu_leaves (c : lcluster) : list Z := flat_map lm_leaves (lc_mirrors c).
Definition clu_mirrors (c : lcluster) : list Z := map lm_uuid (lc_mirrors c).

Lemma import_cluster_spec c g : In c (la_clusters L) -> NoDup (clu_leaves c) -> NoDup (clu_mirrors c) -> oks g -> clu_known ds g c ->
  exists g' r, import_cluster T g (lc_uuid c) = Some (g', r) /\ but (clu_leaves c) (clu_mirrors c) [lc_uuid c] g g' /\ cres_ok ds c r.
Proof.
  intros Hc HN1 HN2 HO [K1 K2]. unfold import_cluster. destruct K1 as [[Hh E]|[Hh E]]; rewrite E.
  2:{ exists g, ENOENT. split; [reflexivity|]. split; [|assumption].
      refine (but_more _ _ _ _ _ _ _ _ _ _ _ (but_refl g HO)); intros x []. }
  destruct HO as (O1 & O2 & O3 & O4).
  set (g1 := Mgr (g_devices g) (g_mirrors g) (zm_del (lc_uuid c) (g_raids g)) (g_pools g)). cbn [rl_children].
  assert (B : but [] [] [lc_uuid c] g g1).
  { split; [repeat split; try assumption; now apply zm_ok_del|]. repeat split; auto.
    intros w Hw. unfold g1; cbn [g_raids]. rewrite zm_get_del by assumption.
    destruct (Z.eqb_spec w (lc_uuid c)) as [->|]; [exfalso; apply Hw; left; reflexivity|reflexivity]. }
  destruct (import_mirrors_spec c (lc_mirrors c) Hc (fun m Hm => Hm) HN1 HN2 g1 (proj1 B)) as (g2 & rs & E2 & B2 & R2).
  { exact K2. }
  rewrite E2. cbn [obind]. pose proof (but_trans _ _ _ _ _ _ _ _ _ B B2) as B3. cbn [app] in B3.
  pose proof (gots_perm _ _ (proj1 (proj2 HT) (lc_uuid c) rs)) as HP.
  destruct (gots (t_mirrors T (lc_uuid c) rs)) as [|p ps] eqn:EP.
  - exfalso. destruct Hh as (m & Hm & Hh). destruct (Forall2_in_l _ _ _ _ R2 Hm) as ([x|] & Hb & Hok); [|contradiction].
    apply gots_in in Hb. apply (Permutation_in _ (Permutation_sym HP)) in Hb. exact Hb.
  - destruct (raid_open_spec c rs (p :: ps) Hc R2 HP ltac:(discriminate)) as (x & l & EO & Hx & Hl).
    rewrite EO. cbn [obind]. exists g2, (Got (x, l)). split; [reflexivity|]. split; [assumption|]. split; [|split]; assumption.
Qed.

Lemma import_clusters_spec cs : (forall c, In c cs -> In c (la_clusters L)) ->
  NoDup (flat_map clu_leaves cs) -> NoDup (flat_map clu_mirrors cs) -> NoDup (map lc_uuid cs) ->
  forall g, oks g -> Forall (clu_known ds g) cs ->
  exists g' rs, import_clusters T g (map lc_uuid cs) = Some (g', rs)
  /\ but (flat_map clu_leaves cs) (flat_map clu_mirrors cs) (map lc_uuid cs) g g' /\ Forall2 (cres_ok ds) cs rs.
Proof.
  induction cs as [|c cs IH]; intros Hsub HN1 HN2 HN3 g HO HK.
  - exists g, []. split; [reflexivity|]. split; [now apply but_refl|constructor].
  - inversion HK as [|? ? K0 K1]; subst. destruct (nodup_flat_tail _ _ _ HN1) as [HN1a HN1b]. destruct (nodup_flat_tail _ _ _ HN2) as [HN2a HN2b].
    inversion HN3 as [|? ? HN3b HN3a]; subst.
    pose proof (nodup_flat_each _ _ c HN1 (or_introl eq_refl)) as Hn1. pose proof (nodup_flat_each _ _ c HN2 (or_introl eq_refl)) as Hn2.
    destruct (import_cluster_spec c g (Hsub c (or_introl eq_refl)) Hn1 Hn2 HO K0) as (g1 & r & E1 & B1 & R1).
    destruct (IH (fun c Hc => Hsub c (or_intror Hc)) HN1a HN2a HN3a g1 (proj1 B1)) as (g2 & rs & E2 & B2 & R2).
    { apply Forall_forall. intros c' Hc'. refine (clu_known_but _ _ _ _ _ _ B1 _ _ _ (proj1 (Forall_forall _ _) K1 c' Hc')).
      - intros m u Hm Hu Hu2. apply (HN1b u Hu2). apply in_flat_map. exists c'. split; [assumption|]. apply in_flat_map. eauto.
      - intros m Hm Hu2. apply (HN2b _ Hu2). apply in_flat_map. exists c'. split; [assumption|]. now apply in_map.
      - intros [E|[]]. apply HN3b. rewrite E. now apply in_map. }
    exists g2, (r :: rs). cbn [map import_clusters]. rewrite E1. cbn [obind]. rewrite E2. cbn [obind]. split; [reflexivity|].
    split; [exact (but_trans _ _ _ _ _ _ _ _ _ B1 B2)|]. constructor; assumption.
Qed.

Lemma open_clusters_spec (P : lcluster -> raid -> Prop) cs : forall ms, zm_ok ms -> NoDup (map lc_uuid cs) ->
  (forall c, In c cs -> exists x l, zm_get (lc_uuid c) ms = Some (x, l) /\ P c x) ->
  exists t, open_clusters ms (map lc_uuid cs) = Some t /\ Forall2 P cs t.
Proof.
  induction cs as [|c cs IH]; intros ms HO HN H; [exists []; split; [reflexivity|constructor]|].
  inversion HN as [|? ? H1 H2]; subst. destruct (H c (or_introl eq_refl)) as (x & l & E & HPc). cbn [map open_clusters]. rewrite E. cbn [obind].
  destruct (IH (zm_del (lc_uuid c) ms) (zm_ok_del _ _ HO) H2) as (t & Et & Ht).
  - intros c' Hc'. rewrite zm_get_del by assumption. destruct (Z.eqb_spec (lc_uuid c') (lc_uuid c)) as [Eq|].
    + exfalso. apply H1. rewrite <- Eq. now apply in_map.
    + apply H. now right.
  - rewrite Et. cbn [obind]. exists (x :: t). split; [reflexivity|]. constructor; assumption.
Qed.

Lemma all_gots {A} (rs : list (res A)) : existsb is_err rs = false -> length (gots rs) = length rs.
Proof. induction rs as [|[a|] rs IH]; cbn; [reflexivity| |discriminate]. intros E. now rewrite IH. Qed.

Lemma pool_open_spec rs ps : Forall2 (cres_ok ds) (la_clusters L) rs -> existsb is_err rs = false -> Permutation ps (gots rs) ->
  exists p l, pool_open (la_uuid L) ps = Some (p, l) /\ pool_ok ds L p /\ label_ok ds L l.
Proof.
  intros HR HE HP. pose proof HW as (HC & HM & HLv & Hne & _).
  assert (Hps : forall x l, In (x, l) ps -> exists c, In c (la_clusters L) /\ cres_ok ds c (Got (x, l))).
  { intros x l Hin. apply (Permutation_in _ HP) in Hin. apply gots_in in Hin. exact (Forall2_in_r _ _ _ _ HR Hin). }
  assert (Hlab : forall x l, In (x, l) ps -> l_pool l = PLabel (la_name L) (la_uuid L) (map lc_uuid (la_clusters L)) /\ label_ok ds L l).
  { intros x l Hin. destruct (Hps x l Hin) as (c & Hc & (_ & _ & (m & Hm & Hl & Hu & Hx))). pose proof (disk_of _ _ _ Hc Hm Hl Hu).
    split; [tauto|]. exists m. split; [exact (in_mirrors _ _ _ Hc Hm)|]. auto. }
  assert (Huu : forall c x l, cres_ok ds c (Got (x, l)) -> r_uuid x = lc_uuid c).
  { intros c [u y|u y] l (_ & H & _); cbn in *; tauto. }
  assert (HN : NoDup (map (fun p : raid * label => r_uuid (fst p)) ps)).
  { apply (Permutation_NoDup (Permutation_map _ (Permutation_sym HP))).
    refine (gots_nodup (cres_ok ds) lc_uuid _ _ _ _ HR HC). intros a [x l] H. exact (Huu a x l H). }
  unfold pool_open.
  replace (forallb (fun p => pl_uuid (l_pool (snd p)) =? la_uuid L) ps) with true.
  2:{ symmetry. apply forallb_forall. intros [x l] Hin. cbn [snd]. rewrite (proj1 (Hlab x l Hin)). apply Z.eqb_refl. }
  cbn [check obind].
  assert (Hlen : length ps = length (la_clusters L)).
  { rewrite (Permutation_length HP), all_gots by assumption. symmetry. clear - HR. induction HR; cbn; congruence. }
  destruct ps as [|[x0 l0] ps0] eqn:EP; [destruct (la_clusters L); [contradiction|discriminate]|]. rewrite <- EP in *.
  assert (H0 : In (x0, l0) ps) by (rewrite EP; left; reflexivity).
  destruct (Hlab x0 l0 H0) as [-> Hl0]. cbn [pl_children pl_name pl_uuid].
  replace (zlen (collect (fun p : raid * label => r_uuid (fst p)) ps) =? zlen (map lc_uuid (la_clusters L))) with true.
  2:{ symmetry. apply Z.eqb_eq. unfold zlen. rewrite collect_length by assumption. rewrite map_length. congruence. }
  cbn [check obind].
  destruct (open_clusters_spec (cluster_ok ds) (la_clusters L) (collect (fun p : raid * label => r_uuid (fst p)) ps) (collect_ok _ _) HC) as (t & Et & Ht).
  { intros c Hc. destruct (Forall2_in_l _ _ _ _ HR Hc) as ([[x l]|] & Hb & Hok).
    - exists x, l. split; [|apply Hok]. apply collect_get; [assumption|]. split; [|exact (Huu c x l Hok)].
      apply (Permutation_in _ (Permutation_sym HP)). now apply gots_in.
    - exfalso. assert (HX : existsb is_err rs = true) by (apply existsb_exists; exists ENOENT; auto). congruence. }
  rewrite Et. cbn [obind]. eexists _, _. split; [reflexivity|]. split; [|assumption].
  split; [reflexivity|]. split; [reflexivity|]. exact Ht.
Qed.

Lemma flat_leaves cs : flat_map clu_leaves cs = flat_map lm_leaves (flat_map lc_mirrors cs).
Proof. induction cs as [|c cs IH]; [reflexivity|]. cbn. rewrite flat_map_app, IH. reflexivity. Qed.
Lemma flat_mirrors cs : flat_map clu_mirrors cs = map lm_uuid (flat_map lc_mirrors cs).
Proof. induction cs as [|c cs IH]; [reflexivity|]. cbn. rewrite map_app, IH. reflexivity. Qed.

(** What importing gives, and what it leaves alone. *)
Lemma import_spec g : knows L ds g ->
  exists g' r, import T g (la_uuid L) = Some (g', r)
  /\ (oks g' /\ (forall u, ~ In u (all_leaves L) -> zm_get u (g_devices g') = zm_get u (g_devices g))
      /\ (forall u, ~ In u (map lm_uuid (all_mirrors L)) -> zm_get u (g_mirrors g') = zm_get u (g_mirrors g))
      /\ (forall u, ~ In u (map lc_uuid (la_clusters L)) -> zm_get u (g_raids g') = zm_get u (g_raids g))
      /\ (forall u, u <> la_uuid L -> zm_get u (g_pools g') = zm_get u (g_pools g)) /\ zm_get (la_uuid L) (g_pools g') = None)
  /\ match r with Got (p, l) => whole ds L /\ pool_ok ds L p /\ label_ok ds L l | ENOENT => ~ whole ds L end.
Proof.
  intros [HO K2 K3 K4 K5]. unfold import. pose proof HW as (HC & HM & HLv & Hne & _).
  destruct K5 as [[Hh E]|[Hh E]]; rewrite E.
  2:{ exists g, ENOENT. split; [reflexivity|]. split; [repeat split; auto; apply HO|].
      intros Hw. destruct (la_clusters L) as [|c cs] eqn:EC; [contradiction|].
      destruct (Hw c) as (m & Hm & Hx); [rewrite EC; now left|]. apply Hh. exists m. split; [|assumption].
      apply in_flat_map. exists c. rewrite EC. split; [now left|assumption]. }
  destruct HO as (O1 & O2 & O3 & O4).
  set (g1 := Mgr (g_devices g) (g_mirrors g) (g_raids g) (zm_del (la_uuid L) (g_pools g))). cbn [pl_children].
  assert (O : oks g1) by (repeat split; try assumption; now apply zm_ok_del).
  destruct (import_clusters_spec (la_clusters L) (fun c Hc => Hc)) with (g := g1) as (g2 & rs & E2 & B2 & R2).
  { rewrite flat_leaves. exact HLv. } { rewrite flat_mirrors. exact HM. } { exact HC. } { exact O. }
  { apply Forall_forall. intros c Hc. split; [exact (K4 c Hc)|]. apply Forall_forall. intros m Hm. pose proof (in_mirrors _ _ _ Hc Hm) as Hm1. split.
    - intros u d Hu. apply K2. exact (in_leaves _ _ _ Hm1 Hu).
    - exact (K3 m Hm1). }
  rewrite E2. cbn [obind]. rewrite flat_leaves, flat_mirrors in B2. destruct B2 as (OO & B1 & B2 & B3 & B4).
  assert (Frame : oks g2 /\ (forall u, ~ In u (all_leaves L) -> zm_get u (g_devices g2) = zm_get u (g_devices g))
      /\ (forall u, ~ In u (map lm_uuid (all_mirrors L)) -> zm_get u (g_mirrors g2) = zm_get u (g_mirrors g))
      /\ (forall u, ~ In u (map lc_uuid (la_clusters L)) -> zm_get u (g_raids g2) = zm_get u (g_raids g))
      /\ (forall u, u <> la_uuid L -> zm_get u (g_pools g2) = zm_get u (g_pools g)) /\ zm_get (la_uuid L) (g_pools g2) = None).
  { split; [exact OO|]. repeat split; auto; intros; rewrite B4; cbn [g1 g_pools]; rewrite zm_get_del by assumption.
    - destruct (Z.eqb_spec u (la_uuid L)); [contradiction|reflexivity].
    - now rewrite Z.eqb_refl. }
  assert (Hsome : existsb is_err rs = false <-> whole ds L).
  { split.
    - intros HE c Hc. destruct (Forall2_in_l _ _ _ _ R2 Hc) as ([[x l]|] & Hb & Hok); [exact (proj1 Hok)|].
      exfalso. assert (HX : existsb is_err rs = true) by (apply existsb_exists; exists ENOENT; auto). congruence.
    - intros Hw. destruct (existsb is_err rs) eqn:HE; [|reflexivity]. exfalso. apply existsb_exists in HE. destruct HE as ([x|] & Hin & HE); [discriminate|].
      destruct (Forall2_in_r _ _ _ _ R2 Hin) as (c & Hc & Hok). apply Hok. exact (Hw c Hc). }
  destruct (existsb is_err rs) eqn:HE.
  - exists g2, ENOENT. split; [reflexivity|]. split; [exact Frame|]. intros Hw. apply Hsome in Hw. discriminate.
  - destruct (pool_open_spec rs (gots (t_clusters T (la_uuid L) rs)) R2 HE) as (p & l & EO & Hp & Hl).
    { apply gots_perm. apply (proj2 (proj2 HT)). }
    rewrite EO. cbn [obind]. exists g2, (Got (p, l)). split; [reflexivity|]. split; [exact Frame|].
    split; [apply Hsome; reflexivity|]. auto.
Qed.

End World.

(** ** C102 *)

(** After any disks have been tasted in any order, among them disks of other pools and disks without a label, and however long each of them takes to
    answer: a pool with a disk in every cluster is imported, without a panic.  It has its name and its clusters in their order, with
    every disk that was found in its place; disks that are behind the others of their mirror are to be rebuilt.  Its contents are those of the
    latest transaction of one of its mirrors. *)
Theorem C102_import L ds T : wf L -> found L ds -> fair T -> whole ds L ->
  exists g p l, import T (tasted ds) (la_uuid L) = Some (g, Got (p, l)) /\ pool_ok ds L p /\ label_ok ds L l.
Proof.
  intros HW HF HT Hw. destruct (import_spec L ds T HW HF HT _ (tasted_knows L ds HW HF)) as (g & r & E & _ & H).
  destruct r as [[p l]|]; [|contradiction]. exists g, p, l. tauto.
Qed.

(** A pool of which a cluster has no disk is refused. *)
Theorem C102_incomplete L ds T : wf L -> found L ds -> fair T -> ~ whole ds L ->
  exists g, import T (tasted ds) (la_uuid L) = Some (g, ENOENT).
Proof.
  intros HW HF HT Hw. destruct (import_spec L ds T HW HF HT _ (tasted_knows L ds HW HF)) as (g & r & E & _ & H).
  destruct r as [[p l]|]; [tauto|]. exists g. exact E.
Qed.

Lemma leaf_ok_fun ds ds' m x y : (forall d, In (Some d) ds <-> In (Some d) ds') ->
  (forall d d', In (Some d) ds -> In (Some d') ds -> l_uuid d = l_uuid d' -> d = d') -> In (fst x) (lm_leaves m) ->
  leaf_ok ds m x -> leaf_ok ds' m y -> fst x = fst y -> x = y.
Proof.
  intros HE HU Hin Hx Hy E. destruct x as [u c], y as [u' c']. cbn in E. subst u'. f_equal. cbn in Hin.
  unfold leaf_ok in *. cbn [fst snd] in *. destruct c as [d| |d], c' as [d'| |d'].
  - destruct Hx as (A1 & A2 & _), Hy as (B1 & B2 & _). apply HE in B1. rewrite (HU d d'); congruence.
  - destruct Hx as (A1 & A2 & _). apply HE in A1. now destruct (Hy d A1).
  - destruct Hx as (A1 & A2 & A3), Hy as (B1 & B2 & e & B3 & B4 & B5). apply HE in B1, B3.
    rewrite (HU d d') in A3 by congruence. specialize (A3 e B3 B4). lia.
  - destruct Hy as (B1 & B2 & _). apply HE in B1. now destruct (Hx d' B1).
  - reflexivity.
  - destruct Hy as (B1 & B2 & _). apply HE in B1. now destruct (Hx d' B1).
  - destruct Hx as (A1 & A2 & e & A3 & A4 & A5), Hy as (B1 & B2 & B3). apply HE in B1, A3.
    rewrite (HU d d') in A5 by congruence. specialize (B3 e A3 A4). lia.
  - destruct Hx as (A1 & A2 & _). apply HE in A1. now destruct (Hy d A1).
  - destruct Hx as (A1 & A2 & _), Hy as (B1 & B2 & _). apply HE in B1. rewrite (HU d d'); congruence.
Qed.

Lemma mirror_ok_fun ds ds' m x y : (forall d, In (Some d) ds <-> In (Some d) ds') ->
  (forall d d', In (Some d) ds -> In (Some d') ds -> l_uuid d = l_uuid d' -> d = d') ->
  mirror_ok ds m x -> mirror_ok ds' m y -> x = y.
Proof.
  intros HE HU (E1 & E2 & F) (E1' & E2' & F'). destruct x as [u cs], y as [u' cs']. cbn [m_uuid m_children] in *. f_equal; [congruence|].
  assert (Hs : incl (map fst cs) (lm_leaves m)) by (rewrite E2; intros z; auto).
  rewrite <- E2 in E2'. clear E1 E1' E2. revert cs' E2' F'. induction F as [|x cs Hx F IH]; intros [|y cs'] E2 F'; try discriminate; [reflexivity|].
  inversion F' as [|? ? Hy F1]; subst. cbn in E2. injection E2 as Ea Eb. f_equal.
  - refine (leaf_ok_fun ds ds' m x y HE HU _ Hx Hy _); [apply Hs; now left|congruence].
  - apply IH; auto. intros z Hz. apply Hs. now right.
Qed.

(** The order in which disks are tasted and answer does not matter. *)
Theorem C102_order L ds ds' T T' : wf L -> found L ds -> Permutation ds ds' -> fair T -> fair T' -> whole ds L ->
  exists g g' p l l', import T (tasted ds) (la_uuid L) = Some (g, Got (p, l)) /\ import T' (tasted ds') (la_uuid L) = Some (g', Got (p, l')).
Proof.
  intros HW HF HP HT HT' Hw.
  assert (HE : forall d, In (Some d) ds <-> In (Some d) ds') by (intros d; split; apply Permutation_in; [|apply Permutation_sym]; assumption).
  assert (HF' : found L ds').
  { destruct HF as [F1 F2]. split; [intros d Hd; apply F1, HE, Hd|]. intros d d' Hd Hd'. apply F2; apply HE; assumption. }
  assert (Hw' : whole ds' L).
  { intros c Hc. destruct (Hw c Hc) as (m & Hm & d & Hd & Hu). exists m. split; [assumption|]. exists d. split; [apply HE|]; assumption. }
  destruct (C102_import L ds T HW HF HT Hw) as (g & p & l & E & (P1 & P2 & P3) & _).
  destruct (C102_import L ds' T' HW HF' HT' Hw') as (g' & p' & l' & E' & (P1' & P2' & P3') & _).
  exists g, g', p, l, l'. split; [assumption|]. rewrite E'. replace p' with p; [reflexivity|].
  destruct p as [n u cs], p' as [n' u' cs']. cbn in *. f_equal; try congruence.
  destruct HF as [_ HU]. clear - HE HU P3 P3'. revert cs' P3'. induction P3 as [|c r lcs cs H P3 IH]; intros cs' P3'; inversion P3' as [|? r' ? cs2 H' P4]; subst; [reflexivity|].
  f_equal; [|now apply IH]. clear - HE HU H H'. unfold cluster_ok in *. destruct r as [w x|w x], r' as [w' x'|w' x'].
  - destruct H as (_ & -> & m & Em & Hx), H' as (_ & -> & m' & Em' & Hx'). rewrite Em in Em'. injection Em' as <-. f_equal.
    exact (mirror_ok_fun ds ds' m x x' HE HU Hx Hx').
  - destruct H as (H & _), H' as (H' & _). congruence.
  - destruct H as (H & _), H' as (H' & _). congruence.
  - destruct H as (_ & -> & F), H' as (_ & -> & F'). f_equal. clear - HE HU F F'.
    revert x' F'. induction F as [|m a ms x Ha F IH]; intros x' F'; inversion F' as [|? a' ? x2 Ha' F2]; subst; [reflexivity|]. f_equal; [|now apply IH].
    assert (Hh : has ds m <-> has ds' m) by (unfold has; split; intros (d & Hd & Hu); exists d; split; auto; now apply HE).
    unfold member_ok in Ha, Ha'. destruct a as [w [y|]], a' as [w' [y'|]]; cbn [fst snd] in *; destruct Ha as [-> Ha], Ha' as [-> Ha']; try tauto.
    destruct Ha as [_ Ha], Ha' as [_ Ha']. rewrite (mirror_ok_fun ds ds' m y y' HE HU Ha Ha'). reflexivity.
Qed.

(** The contents of a pool of a single mirror are those of the latest transaction found. *)
Theorem C102_newest L ds T m : wf L -> found L ds -> fair T -> whole ds L -> all_mirrors L = [m] ->
  exists g p l, import T (tasted ds) (la_uuid L) = Some (g, Got (p, l))
  /\ forall d, In (Some d) ds -> of_layout L d -> l_txg d <= l_txg l.
Proof.
  intros HW HF HT Hw E1. destruct (C102_import L ds T HW HF HT Hw) as (g & p & l & E & _ & (m' & Hm' & Hl & Hu & Hx)).
  exists g, p, l. split; [assumption|]. intros d Hd (c & m2 & Hc & Hm2 & Hu2 & _).
  pose proof (in_mirrors _ _ _ Hc Hm2) as Hm3. rewrite E1 in Hm', Hm3. destruct Hm' as [<-|[]], Hm3 as [<-|[]]. auto.
Qed.

(** Two pools that share no disk, mirror or cluster. *)
Definition apart (L L' : layout) : Prop :=
  la_uuid L <> la_uuid L' /\ (forall u, In u (all_leaves L) -> In u (all_leaves L') -> False)
  /\ (forall u, In u (map lm_uuid (all_mirrors L)) -> In u (map lm_uuid (all_mirrors L')) -> False)
  /\ (forall u, In u (map lc_uuid (la_clusters L)) -> In u (map lc_uuid (la_clusters L')) -> False).

(** Pools imported one after the other *)
Fixpoint imports (g : mgr) (l : list (timing * Z)) : option mgr :=
  match l with [] => Some g | (T, u) :: r => match import T g u with Some (g, _) => imports g r | None => None end end.

Lemma knows_frame L L' ds g g' : apart L L' ->
  oks g' /\ (forall u, ~ In u (all_leaves L) -> zm_get u (g_devices g') = zm_get u (g_devices g))
      /\ (forall u, ~ In u (map lm_uuid (all_mirrors L)) -> zm_get u (g_mirrors g') = zm_get u (g_mirrors g))
      /\ (forall u, ~ In u (map lc_uuid (la_clusters L)) -> zm_get u (g_raids g') = zm_get u (g_raids g))
      /\ (forall u, u <> la_uuid L -> zm_get u (g_pools g') = zm_get u (g_pools g)) /\ zm_get (la_uuid L) (g_pools g') = None ->
  knows L' ds g -> knows L' ds g'.
Proof.
  intros (A1 & A2 & A3 & A4) (O & B1 & B2 & B3 & B4 & _) [_ K2 K3 K4 K5]. constructor.
  - exact O.
  - intros u d Hu. rewrite B1 by (intros H; exact (A2 u H Hu)). auto.
  - intros m Hm. rewrite B2 by (intros H; exact (A3 _ H (in_map lm_uuid _ _ Hm))). auto.
  - intros c Hc. rewrite B3 by (intros H; exact (A4 _ H (in_map lc_uuid _ _ Hc))). auto.
  - rewrite B4 by congruence. exact K5.
Qed.

(** Importing pools, whether that succeeds or not, has no effect on other pools. *)
Theorem C102_others L ds T before : wf L -> found L ds -> fair T -> whole ds L ->
  Forall (fun x => fair (fst x) /\ wf (snd x) /\ found (snd x) ds /\ apart (snd x) L) before ->
  ForallOrdPairs (fun x y => apart (snd x) (snd y)) before ->
  exists g g' p l, imports (tasted ds) (map (fun x => (fst x, la_uuid (snd x))) before) = Some g
  /\ import T g (la_uuid L) = Some (g', Got (p, l)) /\ pool_ok ds L p /\ label_ok ds L l.
Proof.
  intros HW HF HT Hw HB HA.
  assert (HK : knows L ds (tasted ds)) by now apply tasted_knows.
  assert (HKs : Forall (fun x => knows (snd x) ds (tasted ds)) before).
  { apply Forall_forall. intros x Hx. destruct (proj1 (Forall_forall _ _) HB x Hx) as (_ & W & F & _). now apply tasted_knows. }
  revert HK HKs. generalize (tasted ds) as g. induction HA as [|[T0 L0] before H0 HA IH]; intros g HK HKs.
  - destruct (import_spec L ds T HW HF HT _ HK) as (g' & r & E & _ & H). destruct r as [[p l]|]; [|contradiction].
    exists g, g', p, l. cbn. tauto.
  - inversion HB as [|? ? (HT0 & HW0 & HF0 & HA0) HB']; subst. inversion HKs as [|? ? HK0 HKs']; subst. cbn [fst snd] in *.
    destruct (import_spec L0 ds T0 HW0 HF0 HT0 g HK0) as (g1 & r & E & FR & _).
    cbn [map imports fst snd]. rewrite E. apply IH; [exact HB'| |].
    + exact (knows_frame L0 L ds g g1 HA0 FR HK).
    + apply Forall_forall. intros x Hx. refine (knows_frame L0 (snd x) ds g g1 _ FR (proj1 (Forall_forall _ _) HKs' x Hx)).
      exact (proj1 (Forall_forall _ _) H0 x Hx).
Qed.

(** *** Which pools there are *)

Lemma tasted_ok ds : oks (tasted ds).
Proof.
  induction ds as [|[d|] ds IH] using rev_ind; [repeat split; constructor| |now rewrite tasted_snoc].
  rewrite tasted_snoc. destruct IH as (O1 & O2 & O3 & O4). repeat split; now apply zm_ok_set.
Qed.

(** The pools on offer are those of which a disk has been tasted, each once. *)
Theorem C102_offered ds :
  (forall n u, In (n, u) (importable (tasted ds)) -> exists d, In (Some d) ds /\ pl_name (l_pool d) = n /\ pl_uuid (l_pool d) = u)
  /\ (forall d, In (Some d) ds -> exists n, In (n, pl_uuid (l_pool d)) (importable (tasted ds)))
  /\ NoDup (map snd (importable (tasted ds))).
Proof.
  assert (HK : forall u pl, In (u, pl) (g_pools (tasted ds)) <-> zm_get u (g_pools (tasted ds)) = Some pl).
  { intros u pl. split; [apply zm_in_get, tasted_ok|apply zm_get_in]. }
  assert (H : (forall u pl, zm_get u (g_pools (tasted ds)) = Some pl -> exists d, In (Some d) ds /\ l_pool d = pl /\ pl_uuid pl = u)
    /\ (forall d, In (Some d) ds -> exists pl, zm_get (pl_uuid (l_pool d)) (g_pools (tasted ds)) = Some pl)).
  { clear HK. induction ds as [|x ds [I1 I2]] using rev_ind; [split; [discriminate|intros d []]|]. rewrite tasted_snoc.
    assert (Hin : forall e, In (Some e) (ds ++ [x]) <-> In (Some e) ds \/ x = Some e) by (intros e; rewrite in_app_iff; cbn; tauto).
    destruct x as [d|]; cbn [taste g_pools].
    - destruct (tasted_ok ds) as (_ & _ & _ & O4). split.
      + intros u pl. rewrite zm_get_set by assumption. destruct (Z.eqb_spec u (pl_uuid (l_pool d))) as [->|].
        * intros [= <-]. exists d. rewrite Hin. auto.
        * intros E. destruct (I1 u pl E) as (e & He & H). exists e. rewrite Hin. auto.
      + intros e He. rewrite zm_get_set by assumption. destruct (Z.eqb_spec (pl_uuid (l_pool e)) (pl_uuid (l_pool d))); [eauto|].
        apply Hin in He. destruct He as [He|[= ->]]; [auto|congruence].
    - split.
      + intros u pl E. destruct (I1 u pl E) as (e & He & H). exists e. rewrite Hin. auto.
      + intros e He. apply Hin in He. destruct He as [He|?]; [auto|discriminate]. }
  destruct H as [H1 H2]. repeat split.
  - intros n u Hin. unfold importable in Hin. apply in_map_iff in Hin. destruct Hin as ([k pl] & [= <- <-] & Hin). apply HK in Hin.
    destruct (H1 k pl Hin) as (d & Hd & <- & E). exists d. auto.
  - intros d Hd. destruct (H2 d Hd) as (pl & E). destruct (H1 _ _ E) as (e & _ & _ & Eu). exists (pl_name pl).
    unfold importable. apply in_map_iff. exists (pl_uuid (l_pool d), pl). cbn [snd]. rewrite Eu. split; [reflexivity|]. now apply HK.
  - unfold importable. rewrite map_map. cbn [snd].
    rewrite (map_ext_in _ fst).
    + destruct (tasted_ok ds) as (_ & _ & _ & O4). unfold zm_ok in O4. clear - O4. induction O4 as [|a l H IH HF]; [constructor|].
      constructor; [|assumption]. intros Hin. rewrite Forall_forall in HF. specialize (HF a Hin). lia.
    + intros [k pl] Hin. apply HK in Hin. destruct (H1 k pl Hin) as (_ & _ & _ & E). exact E.
Qed.

(** A pool that has been imported is not offered again, others still are. *)
Theorem C102_taken L ds T g r : wf L -> found L ds -> fair T -> import T (tasted ds) (la_uuid L) = Some (g, r) ->
  forall n u, In (n, u) (importable g) <-> In (n, u) (importable (tasted ds)) /\ u <> la_uuid L.
Proof.
  intros HW HF HT E. destruct (import_spec L ds T HW HF HT _ (tasted_knows L ds HW HF)) as (g' & r' & E' & (O & _ & _ & _ & B4 & B5) & _).
  rewrite E in E'. injection E' as <- <-. destruct O as (_ & _ & _ & O4). destruct (tasted_ok ds) as (_ & _ & _ & O4').
  assert (HU : forall u pl, zm_get u (g_pools (tasted ds)) = Some pl -> pl_uuid pl = u).
  { clear. intros u pl. revert u pl. induction ds as [|x ds IH] using rev_ind; [discriminate|]. rewrite tasted_snoc. destruct x as [d|]; [|exact IH].
    intros u pl. cbn [taste g_pools]. rewrite zm_get_set by apply (tasted_ok ds). destruct (Z.eqb_spec u (pl_uuid (l_pool d))); [intros [= <-]; auto|apply IH]. }
  intros n u. unfold importable. rewrite !in_map_iff. split.
  - intros ([k pl] & [= <- <-] & Hin). cbn [snd]. apply zm_in_get in Hin; [|assumption].
    destruct (Z.eq_dec k (la_uuid L)) as [->|Hk]; [congruence|]. rewrite B4 in Hin by assumption. pose proof (HU _ _ Hin) as ->.
    split; [|assumption]. exists (k, pl). cbn [snd]. rewrite (HU _ _ Hin). split; [reflexivity|]. now apply zm_get_in.
  - intros [([k pl] & [= <- <-] & Hin) Hne]. cbn [snd] in *. apply zm_in_get in Hin; [|assumption]. pose proof (HU _ _ Hin) as Ek. rewrite Ek in *.
    exists (k, pl). cbn [snd]. rewrite Ek. split; [reflexivity|]. apply zm_get_in. rewrite B4 by assumption. exact Hin.
Qed.

(** Importing by name imports a pool that is offered under the name, if there is one. *)
Theorem C102_by_name T g n :
  (exists u, In (n, u) (importable g) /\ import_by_name T g n = import T g u)
  \/ ((forall u, ~ In (n, u) (importable g)) /\ import_by_name T g n = Some (g, ENOENT)).
Proof.
  unfold import_by_name. destruct (find (fun p => text_eqb (fst p) n) (importable g)) as [[n' u]|] eqn:E.
  - left. apply find_some in E. destruct E as [Hin E]. cbn in E. apply text_eqb_eq in E. subst n'. eauto.
  - right. split; [|reflexivity]. intros u Hin. pose proof (find_none _ _ E _ Hin) as H. cbn in H.
    assert (X : text_eqb n n = true) by now apply text_eqb_eq. congruence.
Qed.

(** *** Whatever the labels say *)

Definition disk_of_child (x : Z * child) : list label := match snd x with CPresent d | CRebuilding d => [d] | CMissing => [] end.
Definition mirror_disks (m : mirror) : list label := flat_map disk_of_child (m_children m).
Definition raid_mirrors (r : raid) : list mirror :=
  match r with Null _ m => [m] | Raid _ ms => flat_map (fun x => match snd x with Some m => [m] | None => [] end) ms end.
Definition pool_mirrors (p : pool) : list mirror := flat_map raid_mirrors (p_clusters p).
Definition pool_disks (p : pool) : list label := flat_map mirror_disks (pool_mirrors p).

Definition sub {A} (l m : list A) : Prop := exists r, Permutation (l ++ r) m.

Lemma sub_refl {A} (l : list A) : sub l l.
Proof. exists []. now rewrite app_nil_r. Qed.
Lemma sub_perm {A} (l m : list A) : Permutation l m -> sub l m.
Proof. intros H. exists []. now rewrite app_nil_r. Qed.
Lemma sub_nil {A} (l : list A) : sub [] l.
Proof. now exists l. Qed.
Lemma sub_trans {A} (l m n : list A) : sub l m -> sub m n -> sub l n.
Proof. intros [r H] [s K]. exists (r ++ s). rewrite app_assoc. eapply perm_trans; [apply Permutation_app_tail; exact H|exact K]. Qed.
Lemma sub_cons {A} (a : A) l m : sub l m -> sub (a :: l) (a :: m).
Proof. intros [r H]. exists r. cbn. now constructor. Qed.
Lemma sub_skip {A} (a : A) l m : sub l m -> sub l (a :: m).
Proof. intros [r H]. exists (a :: r). eapply perm_trans; [apply Permutation_sym, Permutation_middle|]. now constructor. Qed.
Lemma sub_flat {A B} (f : A -> list B) l m : sub l m -> sub (flat_map f l) (flat_map f m).
Proof. intros [r H]. exists (flat_map f r). rewrite <- flat_map_app. now apply Permutation_flat_map. Qed.
Lemma sub_map {A B} (f : A -> B) l m : sub l m -> sub (map f l) (map f m).
Proof. intros [r H]. exists (map f r). rewrite <- map_app. now apply Permutation_map. Qed.
Lemma sub_in {A} (l m : list A) a : sub l m -> In a l -> In a m.
Proof. intros [r H] Ha. apply (Permutation_in _ H). apply in_or_app. auto. Qed.
Lemma sub_nodup {A} (l m : list A) : sub l m -> NoDup m -> NoDup l.
Proof.
  intros [r H] HN. apply (Permutation_NoDup (Permutation_sym H)) in HN. clear H. induction l as [|a l IH]; [constructor|].
  cbn in HN. inversion HN as [|? ? H1 H2]; subst. constructor; [|auto]. intros Ha. apply H1, in_or_app. auto.
Qed.

Lemma zm_set_sub {A} k (v : A) m : sub (map snd (zm_set k v m)) (v :: map snd m).
Proof.
  induction m as [|[k' v'] m IH]; cbn; [apply sub_refl|]. destruct (k <? k'); [apply sub_refl|]. destruct (k =? k'); cbn.
  - apply sub_cons, sub_skip, sub_refl.
  - eapply sub_trans; [apply sub_cons, IH|]. apply sub_perm, perm_swap.
Qed.

Lemma collect_sub {A} (f : A -> Z) l : sub (map snd (collect f l)) l.
Proof.
  induction l as [|a l IH] using rev_ind; [apply sub_nil|]. rewrite collect_snoc. eapply sub_trans; [apply zm_set_sub|].
  eapply sub_trans; [apply sub_cons, IH|]. apply sub_perm. apply Permutation_cons_append.
Qed.

Lemma zm_del_perm {A} k (v : A) m : zm_get k m = Some v -> Permutation (v :: map snd (zm_del k m)) (map snd m).
Proof.
  induction m as [|[k' v'] m IH]; cbn; [discriminate|]. destruct (k =? k'); [intros [= ->]; apply Permutation_refl|].
  intros E. cbn. eapply perm_trans; [apply perm_swap|]. constructor. auto.
Qed.
Lemma zm_del_sub {A} k (m : list (Z * A)) : sub (map snd (zm_del k m)) (map snd m).
Proof.
  induction m as [|[k' v'] m IH]; cbn; [apply sub_nil|]. destruct (k =? k'); [apply sub_skip, sub_refl|]. cbn. now apply sub_cons.
Qed.

Lemma open_children_sub h us : forall leaves, sub (flat_map disk_of_child (open_children h leaves us)) (map snd leaves).
Proof.
  induction us as [|u us IH]; intros leaves; [apply sub_nil|]. cbn [open_children flat_map]. unfold disk_of_child at 1. cbn [snd].
  destruct (zm_get u leaves) as [d|] eqn:E.
  - assert (S : sub (d :: flat_map disk_of_child (open_children h (zm_del u leaves) us)) (map snd leaves)).
    { eapply sub_trans; [apply sub_cons, IH|]. apply sub_perm. now apply zm_del_perm. }
    destruct (l_txg d =? h); exact S.
  - cbn [app]. eapply sub_trans; [apply IH|apply zm_del_sub].
Qed.

Lemma open_members_sub us : forall ms,
  sub (flat_map (fun x => match snd x with Some m => [m] | None => [] end) (open_members ms us)) (map (fun p : Z * (mirror * label) => fst (snd p)) ms).
Proof.
  induction us as [|u us IH]; intros ms; [apply sub_nil|]. cbn [open_members flat_map snd].
  assert (Hd : sub (map (fun p : Z * (mirror * label) => fst (snd p)) (zm_del u ms)) (map (fun p => fst (snd p)) ms)).
  { rewrite <- (map_map snd fst), <- (map_map snd fst). apply sub_map, zm_del_sub. }
  destruct (zm_get u ms) as [[m l]|] eqn:E; cbn [app].
  - eapply sub_trans; [apply sub_cons, IH|]. rewrite <- (map_map snd fst), <- (map_map snd fst).
    apply zm_del_perm in E. apply (Permutation_map fst) in E. apply sub_perm. exact E.
  - eapply sub_trans; [apply IH|exact Hd].
Qed.

Lemma open_clusters_sub us : forall cs t, open_clusters cs us = Some t -> sub t (map (fun p : Z * (raid * label) => fst (snd p)) cs).
Proof.
  induction us as [|u us IH]; intros cs t E; [injection E as <-; apply sub_nil|]. cbn [open_clusters] in E.
  destruct (zm_get u cs) as [[c l]|] eqn:EG; [|discriminate]. cbn [obind] in E.
  destruct (open_clusters (zm_del u cs) us) as [t'|] eqn:E'; [|discriminate]. injection E as <-.
  eapply sub_trans; [apply sub_cons, (IH _ _ E')|]. rewrite <- (map_map snd fst), <- (map_map snd fst).
  apply zm_del_perm in EG. apply (Permutation_map fst) in EG. apply sub_perm. exact EG.
Qed.

(** [es] have been taken from [g], which leaves [g']. *)
Definition takes (g g' : mgr) (es : list label) : Prop :=
  zm_ok (g_devices g') /\ (forall u d, zm_get u (g_devices g') = Some d -> zm_get u (g_devices g) = Some d)
  /\ (forall d, In d es -> zm_get (l_uuid d) (g_devices g) = Some d /\ zm_get (l_uuid d) (g_devices g') = None)
  /\ NoDup (map l_uuid es).

Definition keyed (g : mgr) : Prop := zm_ok (g_devices g) /\ forall u d, zm_get u (g_devices g) = Some d -> l_uuid d = u.

Lemma takes_keyed g g' es : takes g g' es -> keyed g -> keyed g'.
Proof. intros (O & H & _) [_ K]. split; [exact O|]. intros u d E. apply K. auto. Qed.

Lemma takes_nil g g' : g_devices g' = g_devices g -> keyed g -> takes g g' [].
Proof. intros E [O _]. unfold takes. rewrite E. split; [exact O|]. split; [auto|]. split; [intros d []|constructor]. Qed.

Lemma takes_trans g g1 g2 es es' : takes g g1 es -> takes g1 g2 es' -> takes g g2 (es ++ es').
Proof.
  intros (O & A1 & A2 & A3) (O' & B1 & B2 & B3). split; [exact O'|]. split; [auto|]. split.
  - intros d Hd. apply in_app_or in Hd. destruct Hd as [Hd|Hd].
    + destruct (A2 d Hd) as [H1 H2]. split; [assumption|]. destruct (zm_get (l_uuid d) (g_devices g2)) as [e|] eqn:E; [|reflexivity].
      apply B1 in E. congruence.
    + destruct (B2 d Hd) as [H1 H2]. auto.
  - rewrite map_app. clear O O' A1 B1. induction es as [|d es IH]; [assumption|]. cbn in *. inversion A3 as [|? ? N1 N2]; subst.
    constructor; [|apply IH; auto]. intros Hin. apply in_app_or in Hin. destruct Hin as [Hin|Hin]; [contradiction|].
    apply in_map_iff in Hin. destruct Hin as (e & Ee & He). destruct (B2 e He) as [H1 _]. destruct (A2 d (or_introl eq_refl)) as [_ H2]. congruence.
Qed.

Lemma takes_sub g g' es es' : sub es' es -> takes g g' es -> takes g g' es'.
Proof.
  intros HS (O & A1 & A2 & A3). split; [exact O|]. split; [exact A1|]. split.
  - intros d Hd. apply A2. exact (sub_in _ _ _ HS Hd).
  - exact (sub_nodup _ _ (sub_map l_uuid _ _ HS) A3).
Qed.

Lemma import_leaves_takes us : forall g g' rs, keyed g -> import_leaves g us = (g', rs) -> takes g g' (gots rs).
Proof.
  induction us as [|u us IH]; intros g g' rs HK E; [injection E as <- <-; now apply takes_nil|].
  cbn [import_leaves] in E. unfold import_leaf in E. destruct (zm_get u (g_devices g)) as [d|] eqn:EG.
  - destruct (import_leaves _ us) as [g2 xs] eqn:E2. injection E as <- <-. cbn [gots]. pose proof HK as [O K].
    assert (T1 : takes g (Mgr (zm_del u (g_devices g)) (g_mirrors g) (g_raids g) (g_pools g)) [d]).
    { unfold takes; cbn [g_devices]. split; [now apply zm_ok_del|]. pose proof (K _ _ EG) as Eu. split; [|split].
      - intros w e. rewrite zm_get_del by assumption. destruct (w =? u); [discriminate|auto].
      - intros e [<-|[]]. rewrite Eu. split; [assumption|]. rewrite zm_get_del by assumption. now rewrite Z.eqb_refl.
      - cbn. constructor; [intros []|constructor]. }
    exact (takes_trans _ _ _ _ _ T1 (IH _ _ _ (takes_keyed _ _ _ T1 HK) E2)).
  - destruct (import_leaves g us) as [g2 xs] eqn:E2. injection E as <- <-. cbn [gots]. exact (IH _ _ _ HK E2).
Qed.

Section Any.
Context (T : timing) (HT : fair T).

Lemma import_mirror_any g u g' r : keyed g -> import_mirror T g u = Some (g', r) ->
  match r with
  | Got (x, l) => takes g g' (mirror_disks x) /\ m_uuid x = u /\ zm_get (l_uuid l) (g_devices g) = Some l /\ ml_uuid (l_mirror l) = u
     /\ forall w c, In (w, c) (m_children x) -> forall d, In d (disk_of_child (w, c)) -> l_uuid d = w /\ ml_uuid (l_mirror d) = u
  | ENOENT => takes g g' []
  end.
Proof.
  intros HK. unfold import_mirror. destruct (zm_get u (g_mirrors g)) as [ml|]; [|intros [= <- <-]; now apply takes_nil].
  destruct (import_leaves _ (ml_children ml)) as [g2 rs] eqn:E2.
  apply import_leaves_takes in E2; [|exact HK].
  assert (TK : takes g g2 (gots rs)) by exact E2. clear E2.
  pose proof (gots_perm _ _ (proj1 HT u rs)) as HP. set (es := gots (t_leaves T u rs)) in *.
  apply (takes_sub _ _ _ es (sub_perm _ _ HP)) in TK. clear HP. clearbody es.
  destruct es as [|d0 es0] eqn:EE; [intros [= <- <-]; exact TK|]. rewrite <- EE in *. clear EE d0 es0.
  unfold mirror_open. set (hi := fold_right _ _ _). clearbody hi.
  destruct (forallb _ es) eqn:EA; [|discriminate]. cbn [check obind]. destruct (find _ es) as [l|] eqn:EF; [|discriminate]. cbn [obind].
  destruct (existsb _ _); [|discriminate]. cbn [check obind]. intros [= <- <-].
  pose proof (proj1 (forallb_forall _ _) EA) as EA'. apply find_some in EF. destruct EF as [Hl _].
  assert (Hm : forall d, In d es -> ml_uuid (l_mirror d) = u) by (intros d Hd; apply Z.eqb_eq; exact (EA' d Hd)).
  assert (HS : sub (mirror_disks (Mirror (ml_uuid (l_mirror l)) (open_children hi (collect l_uuid es) (ml_children (l_mirror l))))) es).
  { unfold mirror_disks. cbn [m_children]. eapply sub_trans; [apply open_children_sub|apply collect_sub]. }
  split; [exact (takes_sub _ _ _ _ HS TK)|]. split; [cbn; auto|]. split; [exact (proj1 (proj1 (proj2 (proj2 TK)) l Hl))|]. split; [auto|].
  pose proof TK as (_ & _ & _ & HN). clear HS TK. cbn [m_children].
  assert (Hc : forall w d, zm_get w (collect l_uuid es) = Some d -> In d es /\ l_uuid d = w) by (intros w d H; now apply collect_get).
  assert (HO : zm_ok (collect l_uuid es)) by apply collect_ok.
  revert Hc HO. generalize (collect l_uuid es). induction (ml_children (l_mirror l)) as [|v us IH]; intros lv Hc HO w c [].
  - injection H as <- <-. intros d Hd. cbn in Hd. destruct (zm_get v lv) as [e|] eqn:E; [|contradiction].
    destruct (Hc _ _ E) as [H1 H2]. assert (d = e) by (destruct (l_txg e =? hi); destruct Hd as [<-|[]]; reflexivity). subst e. auto.
  - refine (IH (zm_del v lv) _ _ w c H); [|now apply zm_ok_del].
    intros w' d'. rewrite zm_get_del by assumption. destruct (w' =? v); [discriminate|apply Hc].
Qed.

(** The labels that were found do not change while devices are taken. *)
Lemma import_mirrors_any us : forall g g' rs, keyed g -> import_mirrors T g us = Some (g', rs) ->
  takes g g' (flat_map (fun p => mirror_disks (fst p)) (gots rs))
  /\ forall x l, In (x, l) (gots rs) -> zm_get (l_uuid l) (g_devices g) = Some l /\ ml_uuid (l_mirror l) = m_uuid x
     /\ forall w c, In (w, c) (m_children x) -> forall d, In d (disk_of_child (w, c)) -> l_uuid d = w /\ ml_uuid (l_mirror d) = m_uuid x.
Proof.
  induction us as [|u us IH]; intros g g' rs HK E; [injection E as <- <-; split; [now apply takes_nil|intros x l []]|].
  cbn [import_mirrors] in E. destruct (import_mirror T g u) as [[g1 r]|] eqn:E1; [|discriminate]. cbn [obind] in E.
  destruct (import_mirrors T g1 us) as [[g2 rs']|] eqn:E2; [|discriminate]. injection E as <- <-.
  apply import_mirror_any in E1; [|exact HK]. destruct r as [[x l]|].
  - destruct E1 as (T1 & U & G & ML & CH). destruct (IH _ _ _ (takes_keyed _ _ _ T1 HK) E2) as [T2 F2]. cbn [gots flat_map fst]. split.
    + exact (takes_trans _ _ _ _ _ T1 T2).
    + intros y k [[= <- <-]|Hin].
      * split; [assumption|]. rewrite U. auto.
      * destruct (F2 y k Hin) as (H1 & H2). split; [|exact H2]. destruct T1 as (_ & T1 & _). auto.
  - destruct (IH _ _ _ (takes_keyed _ _ _ E1 HK) E2) as [T2 F2]. cbn [gots]. split; [exact (takes_trans _ _ _ _ _ E1 T2)|].
    intros y k Hin. destruct (F2 y k Hin) as (H1 & H2). split; [|exact H2]. destruct E1 as (_ & T1 & _). auto.
Qed.

Lemma import_cluster_any g u g' r : keyed g -> import_cluster T g u = Some (g', r) ->
  match r with
  | Got (x, l) => takes g g' (flat_map mirror_disks (raid_mirrors x)) /\ r_uuid x = u
     /\ zm_get (l_uuid l) (g_devices g) = Some l /\ rl_uuid (l_raid l) = u
     /\ forall m, In m (raid_mirrors x) ->
          (exists k, zm_get (l_uuid k) (g_devices g) = Some k /\ ml_uuid (l_mirror k) = m_uuid m /\ rl_uuid (l_raid k) = u)
          /\ forall w c, In (w, c) (m_children m) -> forall d, In d (disk_of_child (w, c)) -> l_uuid d = w /\ ml_uuid (l_mirror d) = m_uuid m
  | ENOENT => exists es, takes g g' es
  end.
Proof.
  intros HK. unfold import_cluster. destruct (zm_get u (g_raids g)) as [rl|]; [|intros [= <- <-]; exists []; now apply takes_nil].
  destruct (import_mirrors T _ (rl_children rl)) as [[g2 rs]|] eqn:E2; [|discriminate]. cbn [obind].
  apply import_mirrors_any in E2; [|exact HK]. destruct E2 as [TK F]. cbn [g_devices] in F.
  change (takes g g2 (flat_map (fun p : mirror * label => mirror_disks (fst p)) (gots rs))) in TK.
  pose proof (gots_perm _ _ (proj1 (proj2 HT) u rs)) as HP. set (ps := gots (t_mirrors T u rs)) in *.
  apply (takes_sub _ _ _ (flat_map (fun p : mirror * label => mirror_disks (fst p)) ps) (sub_flat _ _ _ (sub_perm _ _ HP))) in TK.
  assert (F' : forall x l, In (x, l) ps -> zm_get (l_uuid l) (g_devices g) = Some l /\ ml_uuid (l_mirror l) = m_uuid x
     /\ forall w c, In (w, c) (m_children x) -> forall d, In d (disk_of_child (w, c)) -> l_uuid d = w /\ ml_uuid (l_mirror d) = m_uuid x)
    by (intros x l H; apply F; exact (Permutation_in _ HP H)).
  clear HP F. clearbody ps. destruct ps as [|[x0 l0] ps0] eqn:EP; [intros [= <- <-]; eauto|]. rewrite <- EP in *.
  assert (H0 : In (x0, l0) ps) by (rewrite EP; now left). clear EP.
  intros E. destruct (raid_open u ps) as [[x l]|] eqn:EO; [|discriminate]. injection E as <- <-.
  unfold raid_open in EO. destruct (forallb _ ps) eqn:EA; [|discriminate]. cbn [check obind] in EO.
  pose proof (proj1 (forallb_forall _ _) EA) as EA'. clear EA.
  assert (Hu : forall x l, In (x, l) ps -> rl_uuid (l_raid l) = u) by (intros y k H; apply Z.eqb_eq; exact (EA' _ H)). clear EA'.
  destruct ps as [|[x1 l1] ps1] eqn:EP; [contradiction|]. rewrite <- EP in *. assert (H1 : In (x1, l1) ps) by (rewrite EP; now left). clear EP.
  assert (HS : sub (raid_mirrors x) (map fst ps) /\ r_uuid x = u /\ l = l1).
  { pose proof (collect_sub (fun p : mirror * label => m_uuid (fst p)) ps) as CS. destruct (rl_null (l_raid l1)).
    - destruct (collect _ ps) as [|[k [m lm]] [|]] eqn:EC; try discriminate. injection EO as <- <-. cbn [raid_mirrors r_uuid].
      split; [|split; [exact (Hu _ _ H1)|reflexivity]]. apply (sub_map fst) in CS. exact CS.
    - destruct (existsb _ _); [|discriminate]. injection EO as <- <-. cbn [raid_mirrors r_uuid].
      split; [|split; [exact (Hu _ _ H1)|reflexivity]]. eapply sub_trans; [apply open_members_sub|].
      apply (sub_map fst) in CS. rewrite map_map in CS. exact CS. }
  destruct HS as (HS & HU & ->). split; [|split; [|split; [|split]]].
  - refine (takes_sub _ _ _ _ _ TK). apply (sub_flat mirror_disks) in HS.
    replace (flat_map (fun p : mirror * label => mirror_disks (fst p)) ps) with (flat_map mirror_disks (map fst ps)); [exact HS|].
    clear. induction ps as [|a ps IH]; [reflexivity|]. cbn. now rewrite IH.
  - exact HU.
  - exact (proj1 (F' _ _ H1)).
  - exact (Hu _ _ H1).
  - intros m Hm. apply (sub_in _ _ _ HS) in Hm. apply in_map_iff in Hm. destruct Hm as ([y k] & <- & Hin). cbn [fst].
    destruct (F' _ _ Hin) as (G1 & G2 & G3). split; [|exact G3]. exists k. split; [assumption|]. split; [assumption|exact (Hu _ _ Hin)].
Qed.

Lemma import_clusters_any us : forall g g' rs, keyed g -> import_clusters T g us = Some (g', rs) ->
  (exists es, takes g g' es /\ sub (flat_map (fun p => flat_map mirror_disks (raid_mirrors (fst p))) (gots rs)) es)
  /\ forall x l, In (x, l) (gots rs) -> zm_get (l_uuid l) (g_devices g) = Some l /\ rl_uuid (l_raid l) = r_uuid x
     /\ forall m, In m (raid_mirrors x) ->
          (exists k, zm_get (l_uuid k) (g_devices g) = Some k /\ ml_uuid (l_mirror k) = m_uuid m /\ rl_uuid (l_raid k) = r_uuid x)
          /\ forall w c, In (w, c) (m_children m) -> forall d, In d (disk_of_child (w, c)) -> l_uuid d = w /\ ml_uuid (l_mirror d) = m_uuid m.
Proof.
  induction us as [|u us IH]; intros g g' rs HK E.
  { injection E as <- <-. split; [|intros x l []]. exists []. split; [now apply takes_nil|apply sub_nil]. }
  cbn [import_clusters] in E. destruct (import_cluster T g u) as [[g1 r]|] eqn:E1; [|discriminate]. cbn [obind] in E.
  destruct (import_clusters T g1 us) as [[g2 rs']|] eqn:E2; [|discriminate]. injection E as <- <-.
  apply import_cluster_any in E1; [|exact HK]. destruct r as [[x l]|].
  - destruct E1 as (T1 & U & G & RL & CH). destruct (IH _ _ _ (takes_keyed _ _ _ T1 HK) E2) as [(es & T2 & S2) F2]. cbn [gots flat_map fst]. split.
    + eexists. split; [exact (takes_trans _ _ _ _ _ T1 T2)|]. destruct S2 as [rr S2]. exists rr. rewrite <- app_assoc. now apply Permutation_app_head.
    + intros y k [[= <- <-]|Hin].
      * rewrite U. auto.
      * destruct (F2 y k Hin) as (H1 & H2 & H3). destruct T1 as (_ & T1 & _). split; [auto|]. split; [assumption|].
        intros m Hm. destruct (H3 m Hm) as ((k' & K1 & K2) & H4). split; [exists k'; auto|assumption].
  - destruct E1 as (es1 & T1). destruct (IH _ _ _ (takes_keyed _ _ _ T1 HK) E2) as [(es & T2 & S2) F2]. cbn [gots]. split.
    + eexists. split; [exact (takes_trans _ _ _ _ _ T1 T2)|]. eapply sub_trans; [exact S2|]. exists es1. apply Permutation_app_comm.
    + intros y k Hin. destruct (F2 y k Hin) as (H1 & H2 & H3). destruct T1 as (_ & T1 & _). split; [auto|]. split; [assumption|].
      intros m Hm. destruct (H3 m Hm) as ((k' & K1 & K2) & H4). split; [exists k'; auto|assumption].
Qed.

End Any.

Lemma tasted_devices ds u d : zm_get u (g_devices (tasted ds)) = Some d -> In (Some d) ds /\ l_uuid d = u.
Proof.
  revert u d. induction ds as [|x ds IH] using rev_ind; [discriminate|]. intros u d. rewrite tasted_snoc, in_app_iff. destruct x as [e|]; cbn [taste g_devices].
  - rewrite zm_get_set by apply (tasted_ok ds). destruct (Z.eqb_spec u (l_uuid e)) as [->|].
    + intros [= <-]. cbn. auto.
    + intros E. destruct (IH u d E). auto.
  - intros E. destruct (IH u d E). auto.
Qed.

(** Whatever the labels say, also if they contradict each other: a pool that is imported has the UUID asked for and consists of disks that have been
    tasted, none of them twice; the labels of these disks name the mirrors that they are used in, and for every mirror and every cluster there is a disk whose
    label says that it belongs to its cluster or to the pool. *)
Theorem C102_own ds T u g p l : fair T -> import T (tasted ds) u = Some (g, Got (p, l)) ->
  p_uuid p = u /\ In (Some l) ds /\ pl_uuid (l_pool l) = u
  /\ NoDup (map l_uuid (pool_disks p))
  /\ (forall d, In d (pool_disks p) -> In (Some d) ds /\ zm_get (l_uuid d) (g_devices g) = None)
  /\ forall r, In r (p_clusters p) ->
     (exists k, In (Some k) ds /\ rl_uuid (l_raid k) = r_uuid r /\ pl_uuid (l_pool k) = u)
     /\ forall m, In m (raid_mirrors r) ->
        (exists k, In (Some k) ds /\ ml_uuid (l_mirror k) = m_uuid m /\ rl_uuid (l_raid k) = r_uuid r)
        /\ forall w c d, In (w, c) (m_children m) -> c = CPresent d \/ c = CRebuilding d -> l_uuid d = w /\ ml_uuid (l_mirror d) = m_uuid m.
Proof.
  intros HT. unfold import. assert (HK : keyed (tasted ds)).
  { split; [apply tasted_ok|]. intros v d H. now apply tasted_devices in H. }
  destruct (zm_get u (g_pools (tasted ds))) as [pl|]; [|discriminate].
  destruct (import_clusters T _ (pl_children pl)) as [[g2 rs]|] eqn:E2; [|discriminate]. cbn [obind].
  apply (import_clusters_any T HT) in E2; [|exact HK]. cbn [g_devices] in E2. destruct E2 as [(es & TK & SK) F].
  change (takes (tasted ds) g2 es) in TK. destruct (existsb is_err rs); [discriminate|].
  pose proof (gots_perm _ _ (proj2 (proj2 HT) u rs)) as HP. set (ps := gots (t_clusters T u rs)) in *.
  destruct (pool_open u ps) as [[p' l']|] eqn:EO; [|discriminate]. cbn [obind]. intros [= <- <- <-].
  assert (F' : forall x l, In (x, l) ps -> In (x, l) (gots rs)) by (intros x k H; exact (Permutation_in _ HP H)).
  unfold pool_open in EO. destruct (forallb _ ps) eqn:EA; [|discriminate]. cbn [check obind] in EO.
  pose proof (proj1 (forallb_forall _ _) EA) as EA'. clear EA.
  assert (Hu : forall x l, In (x, l) ps -> pl_uuid (l_pool l) = u) by (intros y k H; apply Z.eqb_eq; exact (EA' _ H)). clear EA'.
  destruct ps as [|[x1 l1] ps1] eqn:EP; [discriminate|]. rewrite <- EP in *. assert (H1 : In (x1, l1) ps) by (rewrite EP; now left). clear EP.
  destruct (_ =? _); [|discriminate]. cbn [check obind] in EO. destruct (open_clusters _ _) as [t|] eqn:ET; [|discriminate]. injection EO as <- <-.
  apply open_clusters_sub in ET. pose proof (collect_sub (fun p : raid * label => r_uuid (fst p)) ps) as CS.
  apply (sub_map fst) in CS. rewrite map_map in CS. pose proof (sub_trans _ _ _ ET CS) as HS. clear ET CS. cbn [p_uuid p_clusters].
  assert (HSd : sub (pool_disks (Pool (pl_name (l_pool l1)) (pl_uuid (l_pool l1)) t)) es).
  { unfold pool_disks, pool_mirrors. cbn [p_clusters]. eapply sub_trans; [|exact SK].
    pose proof (sub_flat (fun r => flat_map mirror_disks (raid_mirrors r)) _ _ HS) as S1.
    assert (E1 : forall t, flat_map mirror_disks (flat_map raid_mirrors t) = flat_map (fun r => flat_map mirror_disks (raid_mirrors r)) t).
    { clear. induction t as [|r t IH]; [reflexivity|]. cbn. now rewrite flat_map_app, IH. }
    rewrite E1. eapply sub_trans; [exact S1|].
    assert (E3 : forall t : list (raid * label), flat_map (fun r => flat_map mirror_disks (raid_mirrors r)) (map fst t) = flat_map (fun p => flat_map mirror_disks (raid_mirrors (fst p))) t).
    { clear. induction t as [|r t IH]; [reflexivity|]. cbn. now rewrite IH. }
    rewrite E3. apply sub_flat, sub_perm, HP. }
  pose proof (takes_sub _ _ _ _ HSd TK) as (_ & _ & TD & TN).
  split; [exact (Hu _ _ H1)|]. split; [apply (tasted_devices ds (l_uuid l1)), (F _ _ (F' _ _ H1))|]. split; [exact (Hu _ _ H1)|].
  split; [exact TN|]. split.
  { intros d Hd. destruct (TD d Hd) as [G1 G2]. split; [now apply tasted_devices in G1|exact G2]. }
  intros r Hr. apply (sub_in _ _ _ HS) in Hr. apply in_map_iff in Hr. destruct Hr as ([y k] & <- & Hin). cbn [fst].
  destruct (F _ _ (F' _ _ Hin)) as (G1 & G2 & G3). split.
  - exists k. apply tasted_devices in G1. split; [tauto|]. split; [assumption|exact (Hu _ _ Hin)].
  - intros m Hm. destruct (G3 m Hm) as ((k' & K1 & K2 & K3) & G4). split.
    + exists k'. apply tasted_devices in K1. tauto.
    + intros w c d Hc Hd. apply (G4 w c Hc). unfold disk_of_child. cbn [snd]. destruct Hd as [-> | ->]; now left.
Qed.

(** ** What fails *)

Definition in_order : timing := Timing (fun _ l => l) (fun _ l => l) (fun _ l => l).
Definition in_reverse : timing := Timing (fun _ l => rev l) (fun _ l => rev l) (fun _ l => rev l).

Lemma in_order_fair : fair in_order.
Proof. repeat split; intros; apply Permutation_refl. Qed.
Lemma in_reverse_fair : fair in_reverse.
Proof. repeat split; intros; apply Permutation_sym, Permutation_rev. Qed.

(** The disks of a mirror of disks 1 and 2 after some operations; disk 1 is then lost. *)
Definition after_ops (ops : list mop) : list (option label) :=
  map (disk_label (str "tank") 900 800 700) (filter (fun d => negb (d_uuid d =? 1)) (fold_left mstep ops [MDisk 1 DUse None; MDisk 2 DUse None])).

(** That the disks found must agree on what the pool is made of is needed.  Disk 2 of a mirror is faulted, disk 3 is attached in its stead and rebuilt,
    and transactions up to 20 are committed; then disk 1 breaks.  If disk 2 is tasted last, then the pool is imported as it was at transaction 10, although
    disk 3, which has everything, has been tasted too. *)
Theorem C102_stale_disk_refuted : exists (ops : list mop),
  let ds := after_ops ops in
  (exists g p l, import in_order (tasted ds) 900 = Some (g, Got (p, l)) /\ l_txg l = 20)
  /\ (exists g p l, import in_order (tasted (rev ds)) 900 = Some (g, Got (p, l)) /\ l_txg l = 10 /\ map l_uuid (pool_disks p) = [2])
  /\ (exists d, In (Some d) ds /\ l_uuid d = 3 /\ l_txg d = 20).
Proof.
  exists [MSync 5; MSync 10; MFault 2; MAttach 3; MSync 15; MRebuilt 15; MSync 20]. cbn zeta. split; [|split].
  - eexists _, _, _. split; [vm_compute; reflexivity|reflexivity].
  - eexists _, _, _. split; [vm_compute; reflexivity|]. split; reflexivity.
  - eexists. split; [vm_compute; right; left; reflexivity|]. split; reflexivity.
Qed.

(** A pool of two disks, each a cluster of its own, with labels of the given transactions *)
Definition two_clusters (t1 t2 : Z) : list (option label) :=
  [Some (Label 1 t1 (MLabel 71 [1]) (RLabel true 81 [71]) (PLabel (str "tank") 900 [81; 82]));
   Some (Label 2 t2 (MLabel 72 [2]) (RLabel true 82 [72]) (PLabel (str "tank") 900 [81; 82]))].

Definition two_layout : layout := Lay (str "tank") 900 [LC true 81 [LM 71 [1]]; LC true 82 [LM 72 [2]]].

(** With several mirrors, the contents are not always those of the latest transaction: after a crash when only one of two labels had been written, it
    depends on which disk answers first. *)
Theorem C102_newest_refuted : exists L ds T T', wf L /\ found L ds /\ whole ds L /\ fair T /\ fair T'
  /\ (exists g p l, import T (tasted ds) (la_uuid L) = Some (g, Got (p, l)) /\ l_txg l = 20)
  /\ (exists g p l, import T' (tasted ds) (la_uuid L) = Some (g, Got (p, l)) /\ l_txg l = 10).
Proof.
  exists two_layout, (two_clusters 20 10), in_order, in_reverse.
  split; [|split; [|split; [|split; [exact in_order_fair|split; [exact in_reverse_fair|split]]]]].
  - unfold wf. cbn. split; [|split; [|split; [|split]]]; try (repeat constructor; cbn; intuition discriminate); try discriminate.
    intros c [<-|[<-|[]]] _; eexists; reflexivity.
  - split.
    + intros d [[= <-]|[[= <-]|[]]]; left.
      * exists (LC true 81 [LM 71 [1]]), (LM 71 [1]). cbn. repeat split; auto; lia.
      * exists (LC true 82 [LM 72 [2]]), (LM 72 [2]). cbn. repeat split; auto; lia.
    + intros d d' [[= <-]|[[= <-]|[]]] [[= <-]|[[= <-]|[]]]; cbn; congruence.
  - intros c [<-|[<-|[]]]; cbn.
    + exists (LM 71 [1]). split; [auto|]. eexists. split; [left; reflexivity|cbn; auto].
    + exists (LM 72 [2]). split; [auto|]. eexists. split; [right; left; reflexivity|cbn; auto].
  - eexists _, _, _. split; [vm_compute; reflexivity|reflexivity].
  - eexists _, _, _. split; [vm_compute; reflexivity|reflexivity].
Qed.

(** An attempt to import a pool that is not complete is not without effect: when the missing disk is tasted afterwards, the pool can still not be
    imported, though it could have been had the attempt not been made. *)
Theorem C102_retry_refuted : exists d1 d2 u g p l,
  import in_order (tasted [Some d1; Some d2]) u = Some (g, Got (p, l))
  /\ exists g1, import in_order (tasted [Some d1]) u = Some (g1, ENOENT)
  /\ exists g2, import in_order (taste g1 (Some d2)) u = Some (g2, ENOENT).
Proof.
  exists (Label 1 5 (MLabel 71 [1]) (RLabel true 81 [71]) (PLabel (str "tank") 900 [81; 82])).
  exists (Label 2 5 (MLabel 72 [2]) (RLabel true 82 [72]) (PLabel (str "tank") 900 [81; 82])).
  exists 900. eexists _, _, _. split; [vm_compute; reflexivity|]. eexists. split; [vm_compute; reflexivity|].
  eexists. vm_compute. reflexivity.
Qed.

(** ** Examples *)

(** A pool of a RAID device, one of whose three members is a mirror of two disks, and a pool of one disk with the same name *)
Definition big : layout := Lay (str "tank") 900 [LC false 80 [LM 71 [1]; LM 72 [2; 3]; LM 73 [4]]].
Definition small : layout := Lay (str "tank") 901 [LC true 81 [LM 74 [9]]].
Definition big_disk (u t m : Z) (us : list Z) : option label :=
  Some (Label u t (MLabel m us) (RLabel false 80 [71; 72; 73]) (PLabel (str "tank") 900 [80])).
Definition small_disk : option label := Some (Label 9 77 (MLabel 74 [9]) (RLabel true 81 [74]) (PLabel (str "tank") 901 [81])).

(** Disk 3 missed a transaction, disk 4 is not there. *)
Definition shelf : list (option label) := [small_disk; big_disk 3 6 72 [2; 3]; None; big_disk 1 7 71 [1]; big_disk 2 7 72 [2; 3]].

Example C102_ex_hyps : wf big /\ wf small /\ found big shelf /\ found small shelf /\ whole shelf big /\ whole shelf small /\ apart small big.
Proof.
  assert (W : wf big /\ wf small).
  { split; unfold wf; cbn; (split; [|split; [|split; [|split]]]); try (repeat constructor; cbn; intuition discriminate); try discriminate.
    - intros c [<-|[]]; discriminate.
    - intros c [<-|[]] _; eexists; reflexivity. }
  destruct W as [W1 W2]. split; [exact W1|]. split; [exact W2|]. split; [|split; [|split; [|split]]].
  - split.
    + intros d Hd. cbn in Hd. destruct Hd as [[= <-]|[[= <-]|[?|[[= <-]|[[= <-]|[]]]]]]; [right|left|discriminate|left|left].
      * unfold foreign. cbn. intuition discriminate.
      * eexists _, (LM 72 [2; 3]). split; [left; reflexivity|]. cbn. repeat split; auto; lia.
      * eexists _, (LM 71 [1]). split; [left; reflexivity|]. cbn. repeat split; auto; lia.
      * eexists _, (LM 72 [2; 3]). split; [left; reflexivity|]. cbn. repeat split; auto; lia.
    + intros d d' Hd Hd'. cbn in Hd, Hd'. destruct Hd as [[= <-]|[[= <-]|[?|[[= <-]|[[= <-]|[]]]]]]; try discriminate;
        destruct Hd' as [[= <-]|[[= <-]|[?|[[= <-]|[[= <-]|[]]]]]]; try discriminate; reflexivity.
  - split.
    + intros d Hd. cbn in Hd. destruct Hd as [[= <-]|[[= <-]|[?|[[= <-]|[[= <-]|[]]]]]]; [left|right|discriminate|right|right]; try (unfold foreign; cbn; intuition discriminate).
      eexists _, (LM 74 [9]). split; [left; reflexivity|]. cbn. repeat split; auto; lia.
    + intros d d' Hd Hd'. cbn in Hd, Hd'. destruct Hd as [[= <-]|[[= <-]|[?|[[= <-]|[[= <-]|[]]]]]]; try discriminate;
        destruct Hd' as [[= <-]|[[= <-]|[?|[[= <-]|[[= <-]|[]]]]]]; try discriminate; reflexivity.
  - intros c [<-|[]]. exists (LM 71 [1]). split; [now left|]. eexists. split; [do 3 right; left; reflexivity|now left].
  - intros c [<-|[]]. exists (LM 74 [9]). split; [now left|]. eexists. split; [left; reflexivity|now left].
  - unfold apart. cbn. repeat split; intros; intuition (subst; discriminate).
Qed.

Example C102_ex : exists g p l g' p' l',
  import in_reverse (tasted shelf) 901 = Some (g, Got (p, l)) /\ map l_uuid (pool_disks p) = [9] /\ l_txg l = 77
  /\ import in_reverse g 900 = Some (g', Got (p', l')) /\ l_txg l' = 7
  /\ map (map (fun x => (fst x, match snd x with CPresent _ => 1 | CRebuilding _ => 2 | CMissing => 3 end))) (map m_children (pool_mirrors p')) = [[(1, 1)]; [(2, 1); (3, 2)]]
  /\ match p_clusters p' with [Raid 80 [(71, Some _); (72, Some _); (73, None)]] => True | _ => False end.
Proof.
  do 6 eexists. split; [vm_compute; reflexivity|]. split; [reflexivity|]. split; [reflexivity|].
  split; [vm_compute; reflexivity|]. split; [reflexivity|]. split; [reflexivity|exact I].
Qed.

Example C102_ex_offered : importable (tasted shelf) = [(str "tank", 900); (str "tank", 901)].
Proof. vm_compute. reflexivity. Qed.

Print Assumptions C102_import.
Print Assumptions C102_incomplete.
Print Assumptions C102_order.
Print Assumptions C102_newest.
Print Assumptions C102_others.
Print Assumptions C102_offered.
Print Assumptions C102_taken.
Print Assumptions C102_by_name.
Print Assumptions C102_own.
Print Assumptions C102_stale_disk_refuted.
Print Assumptions C102_newest_refuted.
Print Assumptions C102_retry_refuted.
