(** C109: what the status of a pool tells. *)
From Coq Require Import String.
From Verif Require Import Common Prop_Model Rpc_Model Status_Model.
From Coq Require Import List.
Import ListNotations.
Open Scope Z_scope.

(** * Specification *)

Definition starts (c : Z) (t : text) : Prop := exists r, t = c :: r.
Definition degree_ok (h : whealth) : Prop := match h with WDegraded n => 1 <= n <= 255 | _ => True end.

(** a disk's name: an absolute path, or nothing if the disk is missing (mirror.rs 766-775) *)
Definition path_ok (t : text) : Prop := t = [] \/ starts SLASH t.
Definition leaf_ok (l : leafst) : Prop := path_ok (lf_path l) /\ degree_ok (lf_health l).
(** a mirror has disks; so has a RAID *)
Definition mirror_ok (m : mirrorst) : Prop := Forall leaf_ok (mi_leaves m) /\ mi_leaves m <> [] /\ degree_ok (mi_health m).
Definition cluster_ok (c : clusterst) : Prop :=
  Forall mirror_ok (cl_mirrors c) /\ cl_mirrors c <> [] /\ degree_ok (cl_health c) /\
  cl_codec c <> [] /\ ~ starts SLASH (cl_codec c) /\ ~ starts 32 (cl_codec c) /\ cl_codec c <> str "mirror".
Definition pool_ok (p : poolst) : Prop :=
  Forall cluster_ok (ps_clusters p) /\ degree_ok (ps_health p) /\ ps_name p <> [] /\ ~ starts SLASH (ps_name p) /\ ~ starts 32 (ps_name p).

(** agreement in all that is to be shown; [u]: identifiers too *)
Definition same_leaf (u : bool) (a b : leafst) : Prop :=
  lf_path a = lf_path b /\ lf_health a = lf_health b /\ (u = true -> lf_uuid a = lf_uuid b).
Definition faulted (m : mirrorst) : Prop := exists r, mi_health m = WFaulted r.
Definition same_mirror (u : bool) (a b : mirrorst) : Prop :=
  Forall2 (same_leaf u) (mi_leaves a) (mi_leaves b) /\
  ((length (mi_leaves a) > 1)%nat \/ faulted a \/ faulted b -> mi_health a = mi_health b /\ (u = true -> mi_uuid a = mi_uuid b)).
Definition same_cluster (u : bool) (a b : clusterst) : Prop :=
  Forall2 (same_mirror u) (cl_mirrors a) (cl_mirrors b) /\
  ((length (cl_mirrors a) > 1)%nat -> cl_codec a = cl_codec b /\ cl_health a = cl_health b /\ (u = true -> cl_uuid a = cl_uuid b)).
Definition same_pool (u : bool) (a b : poolst) : Prop :=
  Forall2 (same_cluster u) (ps_clusters a) (ps_clusters b) /\ ps_name a = ps_name b /\ ps_health a = ps_health b /\ (u = true -> ps_uuid a = ps_uuid b).

(** * The rows, without the state *)

Definition mshown (m : mirrorst) : bool := (1 <? Z.of_nat (length (mi_leaves m))) || is_faulted (mi_health m).
Definition cshown (c : clusterst) : bool := 1 <? Z.of_nat (length (cl_mirrors c)).
Definition lrow u i (l : leafst) : row := mkrow u i (lf_path l) (lf_uuid l) (lf_health l).
Definition mrows u i (m : mirrorst) : list row :=
  if mshown m then mkrow u i (str "mirror") (mi_uuid m) (mi_health m) :: map (lrow u (i + 2)) (mi_leaves m) else map (lrow u i) (mi_leaves m).
Definition crows u i (c : clusterst) : list row :=
  if cshown c then mkrow u i (cl_codec c) (cl_uuid c) (cl_health c) :: flat_map (mrows u (i + 2)) (cl_mirrors c) else flat_map (mrows u i) (cl_mirrors c).

Lemma fold_leaves u i ls t : fold_left (fun t l => t ++ [mkrow u i (lf_path l) (lf_uuid l) (lf_health l)]) ls t = t ++ map (lrow u i) ls.
Proof. revert t; induction ls as [|l ls IH]; intros t; cbn [fold_left map]; [now rewrite app_nil_r|]. rewrite IH, <- app_assoc. reflexivity. Qed.
Lemma fold_mirrors u i ms t : fold_left (add_mirror u) ms (i, t) = (i, t ++ flat_map (mrows u i) ms).
Proof.
  revert t; induction ms as [|m ms IH]; intros t; cbn [fold_left flat_map]; [now rewrite app_nil_r|].
  replace (add_mirror u (i, t) m) with (i, t ++ mrows u i m); [rewrite IH, <- app_assoc; reflexivity|].
  unfold add_mirror, mrows. fold (mshown m). destruct (mshown m); rewrite fold_leaves; f_equal; [lia|]. now rewrite <- app_assoc.
Qed.
Lemma fold_clusters u i cs t : fold_left (add_cluster u) cs (i, t) = (i, t ++ flat_map (crows u i) cs).
Proof.
  revert t; induction cs as [|c cs IH]; intros t; cbn [fold_left flat_map]; [now rewrite app_nil_r|].
  replace (add_cluster u (i, t) c) with (i, t ++ crows u i c); [rewrite IH, <- app_assoc; reflexivity|].
  unfold add_cluster, crows. fold (cshown c). destruct (cshown c); rewrite fold_mirrors; f_equal; [lia|]. now rewrite <- app_assoc.
Qed.
Lemma status_eq u p : status_rows u p = mkrow u 0 (ps_name p) (ps_uuid p) (ps_health p) :: flat_map (crows u 2) (ps_clusters p).
Proof. unfold status_rows. rewrite fold_clusters. reflexivity. Qed.

(** * Reading it *)

(** the depth of a row: how far it is indented *)
Fixpoint lead (t : text) : nat := match t with x :: r => if x =? 32 then S (lead r) else O | [] => O end.
Lemma lead_pad i t : ~ starts 32 t -> lead (repeat 32 i ++ t) = i.
Proof.
  intros N. induction i as [|i IH]; cbn [repeat app lead]; [|rewrite IH; reflexivity].
  destruct t as [|x t]; [reflexivity|]. cbn. destruct (Z.eqb_spec x 32); [|reflexivity]. subst. exfalso. apply N. eexists; reflexivity.
Qed.
Lemma pad_inj i j a b : ~ starts 32 a -> ~ starts 32 b -> repeat 32 i ++ a = repeat 32 j ++ b -> i = j /\ a = b.
Proof.
  intros A B E. assert (i = j) by (rewrite <- (lead_pad i a A), <- (lead_pad j b B), E; reflexivity). subst. split; [reflexivity|].
  eapply app_inv_head; eauto.
Qed.
Lemma starts_not c d t : starts c t -> c <> d -> ~ starts d t.
Proof. intros (r & ->) N (r' & E). congruence. Qed.
Lemma mirror_not : ~ starts 32 (str "mirror") /\ ~ path_ok (str "mirror").
Proof. split; [intros (r & E); discriminate|intros [E|(r & E)]; discriminate]. Qed.

Lemma nat_back n : 1 <= n <= 255 -> parse_digits (show_nat n) 0 = Some n.
Proof.
  intros H. assert (C : forallb (fun n => match parse_digits (show_nat n) 0 with Some m => m =? n | None => false end) (zrange 1 256) = true) by (vm_compute; reflexivity).
  rewrite forallb_forall in C. specialize (C n). rewrite in_zrange in C. specialize (C ltac:(lia)).
  destruct (parse_digits _ _); [|discriminate]. apply Z.eqb_eq in C. congruence.
Qed.
Lemma degraded_d n : hd 0 (show_health (WDegraded n)) = 68.
Proof. reflexivity. Qed.
Lemma health_inj h k : degree_ok h -> degree_ok k -> show_health h = show_health k -> h = k.
Proof.
  intros H K E. destruct h as [|n|r], k as [|m|q].
  - reflexivity.
  - apply (f_equal (hd 0)) in E. rewrite degraded_d in E. discriminate E.
  - destruct q; discriminate E.
  - apply (f_equal (hd 0)) in E. rewrite degraded_d in E. discriminate E.
  - unfold show_health in E. apply app_inv_head in E. apply app_inv_tail in E. cbn in H, K. f_equal.
    assert (Q : Some n = Some m) by (rewrite <- (nat_back n H), <- (nat_back m K), E; reflexivity). congruence.
  - apply (f_equal (hd 0)) in E. rewrite degraded_d in E. destruct q; discriminate E.
  - destruct r; discriminate E.
  - apply (f_equal (hd 0)) in E. rewrite degraded_d in E. destruct r; discriminate E.
  - destruct r, q; try reflexivity; discriminate E.
Qed.

Lemma mkrow_inj u i j a b x y h k : ~ starts 32 a -> ~ starts 32 b -> degree_ok h -> degree_ok k ->
  mkrow u i a x h = mkrow u j b y k -> i = j /\ a = b /\ h = k /\ (u = true -> x = y).
Proof.
  intros A B H K E. unfold mkrow in E. injection E as E1 E2 E3. apply pad_inj in E1; auto. destruct E1. apply health_inj in E3; auto.
  repeat (split; [assumption|]). intros ->. congruence.
Qed.

Definition deep (i : nat) (r : row) : Prop := (i < lead (r_name r))%nat.
Definition at_ (i : nat) (r : row) : Prop := lead (r_name r) = i.
Definition block (i : nat) (b : list row) : Prop := exists h t, b = h :: t /\ at_ i h /\ Forall (deep i) t.

(** blocks that begin with a row less indented than the others can be told apart *)
Lemma blocks_inj {A} (i : nat) (f : A -> list row) l1 l2 : Forall (fun x => block i (f x)) l1 -> Forall (fun x => block i (f x)) l2 ->
  flat_map f l1 = flat_map f l2 -> Forall2 (fun x y => f x = f y) l1 l2.
Proof.
  assert (X : forall t1 t2 s1 s2, Forall (deep i) t1 -> Forall (deep i) t2 ->
    (s1 = [] \/ exists h r, s1 = h :: r /\ at_ i h) -> (s2 = [] \/ exists h r, s2 = h :: r /\ at_ i h) -> t1 ++ s1 = t2 ++ s2 -> t1 = t2 /\ s1 = s2).
  { unfold deep, at_. induction t1 as [|a t1 IH]; intros [|b t2] s1 s2 F1 F2 S1 S2 E; cbn [app] in E.
    - auto.
    - apply Forall_inv in F2. destruct S1 as [S1|(h & r & S1 & H)]; rewrite S1 in E; [discriminate|]. injection E as Q _. subst h. lia.
    - apply Forall_inv in F1. destruct S2 as [S2|(h & r & S2 & H)]; rewrite S2 in E; [discriminate|]. injection E as Q _. subst h. lia.
    - injection E as -> E. destruct (IH _ _ _ (Forall_inv_tail F1) (Forall_inv_tail F2) S1 S2 E) as [-> ->]. auto. }
  assert (Y : forall l, Forall (fun x => block i (f x)) l -> flat_map f l = [] \/ exists h r, flat_map f l = h :: r /\ at_ i h).
  { intros [|x l] F; [auto|]. inversion F as [|? ? (h & t & E & H & _) _]; subst. right. cbn [flat_map]. rewrite E. eexists _, _. split; [reflexivity|exact H]. }
  revert l2. induction l1 as [|x l1 IH]; intros [|y l2] F1 F2 E; cbn [flat_map] in E.
  - constructor.
  - inversion F2 as [|? ? (h & t & Q & _) _]; subst. rewrite Q in E. discriminate.
  - inversion F1 as [|? ? (h & t & Q & _) _]; subst. rewrite Q in E. discriminate.
  - inversion F1 as [|? ? (h & t & Q & H & D) F1']; subst. inversion F2 as [|? ? (h' & t' & Q' & H' & D') F2']; subst.
    rewrite Q, Q' in E. cbn [app] in E. injection E as -> E. destruct (X _ _ _ _ D D' (Y _ F1') (Y _ F2') E) as [-> E2]. constructor; [congruence|auto].
Qed.

Lemma lead_mkrow u i a x h : ~ starts 32 a -> lead (r_name (mkrow u i a x h)) = i.
Proof. intros N. apply lead_pad, N. Qed.
Lemma slash_not t : path_ok t -> ~ starts 32 t.
Proof. intros [->|S]; [intros (r & E); discriminate|eapply starts_not; [exact S|discriminate]]. Qed.

Lemma one {A} (l : list A) : (1 <? Z.of_nat (length l)) = false -> l <> [] -> exists x, l = [x].
Proof. destruct l as [|x [|y l]]; intros H N; [congruence|eauto|]. cbn [length] in H. apply Z.ltb_ge in H. lia. Qed.

Lemma mrows_block u i m : mirror_ok m -> block i (mrows u i m) /\ Forall (fun r => (i <= lead (r_name r))%nat) (mrows u i m).
Proof.
  intros (F & N & _). unfold mrows. destruct (mshown m) eqn:S.
  - assert (D : Forall (deep i) (map (lrow u (i + 2)) (mi_leaves m))).
    { apply Forall_map. eapply Forall_impl; [|exact F]. intros l [L _]. unfold deep, lrow. rewrite lead_mkrow by now apply slash_not. lia. }
    split; [eexists _, _; split; [reflexivity|split; [apply lead_mkrow, mirror_not|exact D]]|].
    constructor; [rewrite lead_mkrow by apply mirror_not; lia|]. eapply Forall_impl; [|exact D]. unfold deep. intros; lia.
  - apply orb_false_iff in S. destruct S as [S _]. destruct (one _ S N) as (l & Q). rewrite Q in *. apply Forall_inv in F. destruct F as [L _]. cbn [map]. split.
    + eexists _, _. split; [reflexivity|]. split; [apply lead_mkrow; now apply slash_not|constructor].
    + constructor; [|constructor]. unfold lrow. rewrite lead_mkrow by (apply slash_not; exact L). lia.
Qed.

Lemma crows_block u i c : cluster_ok c -> block i (crows u i c).
Proof.
  intros (F & N & _ & _ & _ & C & _). unfold crows. destruct (cshown c) eqn:S.
  - eexists _, _. split; [reflexivity|]. split; [now apply lead_mkrow|]. apply Forall_flat_map. eapply Forall_impl; [|exact F]. cbn. intros m M.
    eapply Forall_impl; [|apply (mrows_block u (i + 2) m M)]. unfold deep. cbn. intros; lia.
  - destruct (one _ S N) as (m & E). rewrite E in *. inversion F; subst. cbn [flat_map]. rewrite app_nil_r. now apply mrows_block.
Qed.

Lemma leaves_same u i a b : Forall leaf_ok a -> Forall leaf_ok b -> map (lrow u i) a = map (lrow u i) b -> Forall2 (same_leaf u) a b.
Proof.
  intros A. revert b. induction A as [|x a [X1 X2] A IH]; intros [|y b] B E; try discriminate; [constructor|]. inversion B as [|? ? [Y1 Y2] B']; subst.
  cbn [map] in E. assert (E1 : lrow u i x = lrow u i y) by congruence. assert (E2 : map (lrow u i) a = map (lrow u i) b) by congruence. constructor; [|auto].
  apply mkrow_inj in E1; auto using slash_not. destruct E1 as (_ & P & H & U). repeat split; auto.
Qed.

Lemma mshown_true m : mshown m = true <-> (length (mi_leaves m) > 1)%nat \/ faulted m.
Proof.
  unfold mshown, faulted. rewrite orb_true_iff, Z.ltb_lt. split; intros [H|H].
  - left. lia.
  - right. destruct (mi_health m); try discriminate. eauto.
  - left. lia.
  - right. destruct H as (r & ->). reflexivity.
Qed.

Lemma mirror_same u i a b : mirror_ok a -> mirror_ok b -> mrows u i a = mrows u i b -> same_mirror u a b.
Proof.
  intros (A1 & A2 & A3) (B1 & B2 & B3) E. unfold mrows in E. destruct (mshown a) eqn:Sa, (mshown b) eqn:Sb.
  - assert (E1 : mkrow u i (str "mirror") (mi_uuid a) (mi_health a) = mkrow u i (str "mirror") (mi_uuid b) (mi_health b)) by congruence.
    assert (E2 : map (lrow u (i + 2)) (mi_leaves a) = map (lrow u (i + 2)) (mi_leaves b)) by congruence. split; [eapply leaves_same; eauto|]. intros _.
    apply mkrow_inj in E1; auto; try apply mirror_not. tauto.
  - exfalso. apply orb_false_iff in Sb. destruct Sb as [Sb _]. destruct (one _ Sb B2) as (l & Q). rewrite Q in *. cbn [map] in E. inversion B1 as [|? ? [L _] _]; subst.
    apply (f_equal (fun l => match l with r :: _ => r_name r | [] => [] end)) in E. rename E into E0. unfold lrow, mkrow in E0. cbn [r_name] in E0. apply pad_inj in E0; [|apply mirror_not|now apply slash_not].
    destruct E0 as [_ E0]. apply mirror_not. rewrite E0. exact L.
  - exfalso. apply orb_false_iff in Sa. destruct Sa as [Sa _]. destruct (one _ Sa A2) as (l & Q). rewrite Q in *. cbn [map] in E. inversion A1 as [|? ? [L _] _]; subst.
    apply (f_equal (fun l => match l with r :: _ => r_name r | [] => [] end)) in E. rename E into E0. unfold lrow, mkrow in E0. cbn [r_name] in E0. apply pad_inj in E0; [|now apply slash_not|apply mirror_not].
    destruct E0 as [_ E0]. apply mirror_not. rewrite <- E0. exact L.
  - split; [eapply leaves_same; eauto|]. intros [H|[H|H]]; exfalso.
    + assert (mshown a = true) by (apply mshown_true; auto). congruence.
    + assert (mshown a = true) by (apply mshown_true; auto). congruence.
    + assert (mshown b = true) by (apply mshown_true; auto). congruence.
Qed.

Lemma mirrors_same u i a b : Forall mirror_ok a -> Forall mirror_ok b -> flat_map (mrows u i) a = flat_map (mrows u i) b -> Forall2 (same_mirror u) a b.
Proof.
  intros A B E. apply (blocks_inj i) in E.
  - revert A B. induction E as [|x y a b H E IH]; intros A B; [constructor|]. inversion A; inversion B; subst. constructor; [eapply mirror_same; eauto|auto].
  - eapply Forall_impl; [|exact A]. intros; now apply mrows_block.
  - eapply Forall_impl; [|exact B]. intros; now apply mrows_block.
Qed.

Lemma mrows_head u i m : mirror_ok m -> exists x h r a, mrows u i m = mkrow u i a x h :: r /\ (a = str "mirror" \/ path_ok a).
Proof.
  intros (F & N & _). unfold mrows. destruct (mshown m).
  - eexists _, _, _, _. split; [reflexivity|auto].
  - destruct (mi_leaves m) as [|l ls]; [congruence|]. inversion F as [|? ? [L _] _]; subst. cbn [map]. eexists _, _, _, _. split; [reflexivity|auto].
Qed.

Lemma shown_codec u i c d : cluster_ok c -> cluster_ok d -> cshown c = true -> cshown d = false -> crows u i c <> crows u i d.
Proof.
  intros (C1 & C2 & C3 & C4 & C5 & C6 & C7) (D1 & D2 & _) Sc Sd E. unfold crows in E. rewrite Sc, Sd in E. destruct (one _ Sd D2) as (m & Q). rewrite Q in *.
  inversion D1; subst. cbn [flat_map] in E. rewrite app_nil_r in E. destruct (mrows_head u i m) as (x & h & r & a & R & K); [assumption|]. rewrite R in E.
  apply (f_equal (fun l => match l with r :: _ => r_name r | [] => [] end)) in E. rename E into E0. unfold mkrow in E0. cbn [r_name] in E0. apply pad_inj in E0; [|exact C6|destruct K as [->|K]; [apply mirror_not|now apply slash_not]]. destruct E0 as [_ E0]. rewrite E0 in *. unfold path_ok in K. tauto.
Qed.

Lemma cluster_same u i a b : cluster_ok a -> cluster_ok b -> crows u i a = crows u i b -> same_cluster u a b.
Proof.
  intros A B E. destruct (cshown a) eqn:Sa, (cshown b) eqn:Sb.
  - unfold crows in E. rewrite Sa, Sb in E. destruct A as (A1 & A2 & A3 & _ & _ & A6 & _), B as (B1 & B2 & B3 & _ & _ & B6 & _).
    assert (E1 : mkrow u i (cl_codec a) (cl_uuid a) (cl_health a) = mkrow u i (cl_codec b) (cl_uuid b) (cl_health b)) by congruence.
    apply (f_equal (@tl row)) in E. cbn [tl] in E.
    split; [eapply mirrors_same; eauto|]. intros _. apply mkrow_inj in E1; auto. tauto.
  - destruct (shown_codec u i a b A B Sa Sb E).
  - destruct (shown_codec u i b a B A Sb Sa (eq_sym E)).
  - unfold crows in E. rewrite Sa, Sb in E. destruct A as (A1 & _), B as (B1 & _). split; [eapply mirrors_same; eauto|].
    intros L. unfold cshown in Sa. apply Z.ltb_ge in Sa. lia.
Qed.

(** Pools whose status looks the same have the same RAIDs, mirrors and disks, in the same state. *)
Theorem C109_readable u a b : pool_ok a -> pool_ok b -> status_rows u a = status_rows u b -> same_pool u a b.
Proof.
  intros (A1 & A2 & _ & A3 & A4) (B1 & B2 & _ & B3 & B4) E. rewrite !status_eq in E.
  assert (E1 : mkrow u 0 (ps_name a) (ps_uuid a) (ps_health a) = mkrow u 0 (ps_name b) (ps_uuid b) (ps_health b)) by congruence.
  apply (f_equal (@tl row)) in E. cbn [tl] in E.
  apply mkrow_inj in E1; auto. destruct E1 as (_ & N & H & U). split; [|auto]. apply (blocks_inj 2) in E.
  - revert A1 B1. clear - E. induction E as [|x y la lb H E IH]; intros A B; [constructor|]. inversion A; inversion B; subst. constructor; [eapply cluster_same; eauto|auto].
  - eapply Forall_impl; [|exact A1]. intros; now apply crows_block.
  - eapply Forall_impl; [|exact B1]. intros; now apply crows_block.
Qed.

(** * Every disk is shown *)

Definition disks (p : poolst) : list leafst := flat_map (fun c => flat_map mi_leaves (cl_mirrors c)) (ps_clusters p).
(** what follows the indentation *)
Fixpoint label (t : text) : text := match t with x :: r => if x =? 32 then label r else t | [] => [] end.
Definition is_disk (r : row) : bool := match label (r_name r) with x :: _ => x =? SLASH | [] => true end.

Lemma label_pad i t : ~ starts 32 t -> label (repeat 32 i ++ t) = t.
Proof.
  intros N. induction i as [|i IH]; cbn [repeat app label]; [|exact IH].
  destruct t as [|x t]; [reflexivity|]. cbn. destruct (Z.eqb_spec x 32); [|reflexivity]. subst. exfalso. apply N. eexists; reflexivity.
Qed.
Lemma is_disk_row u i a x h : ~ starts 32 a -> is_disk (mkrow u i a x h) = true <-> path_ok a.
Proof.
  intros N. unfold is_disk, mkrow. cbn [r_name]. rewrite label_pad by exact N. destruct a as [|y a].
  - split; [intros _; left; reflexivity|reflexivity].
  - rewrite Z.eqb_eq. split; [intros ->; right; eexists; reflexivity|intros [E|(r & E)]; congruence].
Qed.

Definition told (r : row) : text * text := (label (r_name r), r_health r).

Lemma leaves_told u i ls : Forall leaf_ok ls ->
  map told (filter is_disk (map (lrow u i) ls)) = map (fun l => (lf_path l, show_health (lf_health l))) ls.
Proof.
  induction 1 as [|l ls [L _] F IH]; [reflexivity|]. cbn [map filter]. unfold lrow at 1. rewrite (proj2 (is_disk_row u i _ _ _ (slash_not _ L)) L). cbn [map]. rewrite IH.
  f_equal. unfold told, lrow, mkrow. cbn [r_name r_health]. rewrite label_pad by now apply slash_not. reflexivity.
Qed.
Lemma no_disk u i a x h : ~ starts 32 a -> ~ path_ok a -> is_disk (mkrow u i a x h) = false.
Proof. intros N S. destruct (is_disk _) eqn:E; [|reflexivity]. apply is_disk_row in E; tauto. Qed.
Lemma mirror_told u i m : mirror_ok m -> map told (filter is_disk (mrows u i m)) = map (fun l => (lf_path l, show_health (lf_health l))) (mi_leaves m).
Proof.
  intros (F & _). unfold mrows. destruct (mshown m); [|now apply leaves_told]. cbn [filter]. rewrite no_disk by apply mirror_not. now apply leaves_told.
Qed.
Lemma mirrors_told u i ms : Forall mirror_ok ms ->
  map told (filter is_disk (flat_map (mrows u i) ms)) = map (fun l => (lf_path l, show_health (lf_health l))) (flat_map mi_leaves ms).
Proof. induction 1 as [|m ms M F IH]; [reflexivity|]. cbn [flat_map]. rewrite filter_app, !map_app, IH, mirror_told by exact M. reflexivity. Qed.

(** The disks of the pool, in its order, each with its path and its state. *)
Theorem C109_disks u p : pool_ok p ->
  map told (filter is_disk (status_rows u p)) = map (fun l => (lf_path l, show_health (lf_health l))) (disks p).
Proof.
  intros (F & _ & N0 & N1 & N2). rewrite status_eq. cbn [filter]. rewrite no_disk by (unfold path_ok; tauto). unfold disks. clear N0 N1 N2.
  induction F as [|c cs C F IH]; [reflexivity|]. cbn [flat_map]. rewrite filter_app, !map_app, IH. f_equal.
  destruct C as (C1 & _ & _ & C4 & C5 & C6 & _). unfold crows. destruct (cshown c); [|now apply mirrors_told].
  cbn [filter]. rewrite no_disk by (unfold path_ok; tauto). now apply mirrors_told.
Qed.

(** states are told apart *)
Theorem C109_health h k : degree_ok h -> degree_ok k -> show_health h = show_health k -> h = k.
Proof. apply health_inj. Qed.

(** Identifiers, and states other than failure, of mirrors of one disk and RAIDs of one mirror are not shown even if
    identifiers are asked for, although [pool attach] and [pool fault] take those of mirrors. *)
Theorem C109_hidden_refuted : exists a b, pool_ok a /\ pool_ok b /\ status_rows true a = status_rows true b /\ a <> b.
Proof.
  exists (mkpoolst WOnline (str "p") [mkcluster WOnline (str "NonRedundant") [mkmirror [mkleaf WOnline (str "/d") 7] WOnline 5] 3] 1).
  exists (mkpoolst WOnline (str "p") [mkcluster (WDegraded 1) (str "NonRedundant") [mkmirror [mkleaf WOnline (str "/d") 7] (WDegraded 1) 6] 4] 1).
  assert (X : forall h i j, degree_ok h -> pool_ok (mkpoolst WOnline (str "p") [mkcluster h (str "NonRedundant") [mkmirror [mkleaf WOnline (str "/d") 7] h i] j] 1)).
  { intros h i j H. unfold pool_ok, cluster_ok, mirror_ok, leaf_ok. cbn [ps_clusters ps_health ps_name cl_mirrors cl_health cl_codec mi_leaves mi_health lf_path lf_health degree_ok].
    split; [|split; [exact I|split; [discriminate|split; intros (r & E); discriminate]]].
    repeat (apply Forall_cons || apply Forall_nil || split); try exact H; try discriminate; try (intros (r & E); discriminate); try exact I. right; eexists; reflexivity. }
  split; [apply X; exact I|]. split; [apply X; cbn; lia|]. split; [reflexivity|discriminate].
Qed.

(** The four states of a disk are told apart. *)
Theorem C109_states c : let t := show_health (lf_health (child_leaf c)) in
  (t = str "Online" <-> exists p i, c = CPresent p i) /\ (t = str "Degraded(1)" <-> exists p i, c = CRebuilding p i) /\
  (t = str "Faulted(administratively)" <-> exists p i, c = CFaulted p i) /\ (t = str "Faulted(removed)" <-> exists i, c = CMissing i).
Proof.
  cbv zeta. destruct c; (split; [|split; [|split]]); (split; [intros E; try discriminate E; eauto|intros H]);
    try (destruct H as (? & H)); try (destruct H as (? & H)); try discriminate H; reflexivity.
Qed.

(** Which disk is missing is not told, whatever the pool, unless identifiers are asked for: two pools that miss
    different disks look alike. *)
Theorem C109_missing_refuted before after x y h mh mu codec ch cu name pu others :
  let pool z := mkpoolst h name (mkcluster ch codec [mkmirror (map child_leaf (before ++ CMissing z :: after)) mh mu] cu :: others) pu in
  status_rows false (pool x) = status_rows false (pool y).
Proof.
  cbv zeta. rewrite !status_eq. cbn [ps_clusters ps_name ps_uuid ps_health flat_map]. do 2 f_equal.
  unfold crows, cshown. cbn [cl_mirrors length flat_map]. change (1 <? Z.of_nat 1) with false. cbv iota.
  unfold mrows, mshown. cbn [mi_leaves mi_health mi_uuid]. rewrite !map_app, !app_length. cbn [map length].
  destruct (_ || _); rewrite ?map_app; reflexivity.
Qed.

(** With identifiers, it is. *)
Theorem C109_missing_told before after x y h mh mu codec ch cu name pu others :
  let pool z := mkpoolst h name (mkcluster ch codec [mkmirror (map child_leaf (before ++ CMissing z :: after)) mh mu] cu :: others) pu in
  status_rows true (pool x) = status_rows true (pool y) -> x = y.
Proof.
  cbv zeta. rewrite !status_eq. cbn [ps_clusters ps_name ps_uuid ps_health flat_map]. intros E. apply (f_equal (@tl row)) in E. cbn [tl] in E.
  apply app_inv_tail in E. unfold crows, cshown in E. cbn [cl_mirrors length flat_map] in E. change (1 <? Z.of_nat 1) with false in E. cbv iota in E.
  rewrite !app_nil_r in E. unfold mrows, mshown in E. cbn [mi_leaves mi_health mi_uuid] in E.
  rewrite !map_app, !app_length in E. cbn [map length] in E.
  destruct (_ || _); [apply (f_equal (@tl row)) in E; cbn [tl] in E|]; rewrite ?map_app in E; apply app_inv_head in E; cbn [map] in E;
    unfold lrow, mkrow, child_leaf in E; cbn [lf_uuid lf_path lf_health] in E; congruence.
Qed.

Example C109_ex : let p := mkpoolst (WDegraded 1) (str "tank")
    [mkcluster (WDegraded 1) (str "PrimeS-3,3,1")
       [mkmirror [mkleaf WOnline (str "/a") 1; mkleaf (WFaulted WUser) (str "/b") 2] (WDegraded 1) 10;
        mkmirror [mkleaf WOnline (str "/c") 3] WOnline 11;
        mkmirror [mkleaf (WFaulted WRemoved) [] 4] (WFaulted WInsufficient) 12] 20] 30 in
  pool_ok p /\ map (fun r => (r_name r, r_health r)) (status_rows false p) =
    [(str "tank", str "Degraded(1)"); (str "  PrimeS-3,3,1", str "Degraded(1)"); (str "    mirror", str "Degraded(1)");
     (str "      /a", str "Online"); (str "      /b", str "Faulted(administratively)"); (str "    /c", str "Online");
     (str "    mirror", str "Faulted"); (str "      ", str "Faulted(removed)")].
Proof.
  cbv zeta. split; [|reflexivity]. unfold pool_ok, cluster_ok, mirror_ok, leaf_ok.
  cbn [ps_clusters ps_health ps_name cl_mirrors cl_health cl_codec mi_leaves mi_health lf_path lf_health degree_ok].
  split; [|split; [lia|split; [discriminate|split; intros (r & E); discriminate]]].
  repeat (apply Forall_cons || apply Forall_nil || split); try exact I; try (intros (r & E); discriminate); try discriminate; try lia; try (left; reflexivity); right; eexists; reflexivity.
Qed.

Print Assumptions C109_readable.
Print Assumptions C109_disks.
Print Assumptions C109_health.
Print Assumptions C109_hidden_refuted.
Print Assumptions C109_missing_refuted.
Print Assumptions C109_missing_told.
Print Assumptions C109_states.
