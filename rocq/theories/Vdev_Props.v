(** C51 (mirror reads), C52 (health of mirrors, RAID devices and pools), C63 (a
    RAID device that has lost no more disks than it tolerates keeps working) and
    C64 (after import only disks with the latest committed transaction are
    trusted). *)
From Verif Require Import Common Vdev_Model.
From Coq Require Import Permutation.

(** ** C51 *)

Definition holds (m : mirror) (i : nat) : Prop := nth_error m i = Some LPresent.

Fixpoint try_all {D E} (disk : nat -> D + E) (l : list nat) (dflt : E) : (D + E) * list nat :=
  match l with
  | [] => (inr dflt, [])
  | i :: r => match disk i with
              | inl d => (inl d, [i])
              | inr e => let '(res, t) := try_all disk r e in (res, i :: t)
              end
  end.

Lemma read_retry_try {D E} (disk : nat -> D + E) (rest : list nat) : forall fuel cur e0,
  (length rest <= fuel)%nat ->
  read_retry disk fuel cur rest = try_all disk (cur :: rev rest) e0.
Proof.
  induction rest as [|x r IH] using rev_ind; intros fuel cur e0 Hf.
  - destruct fuel; cbn; destruct (disk cur); reflexivity.
  - rewrite app_length in Hf. cbn [length] in Hf. destruct fuel as [|fu]; [lia|].
    rewrite rev_app_distr. cbn [rev app].
    cbn [read_retry try_all]. destruct (disk cur) as [d|e]; [reflexivity|].
    destruct (r ++ [x]) as [|r0 rr] eqn:Er; [destruct r; discriminate|].
    rewrite <- Er. rewrite last_last, removelast_last.
    rewrite (IH fu x e) by lia. reflexivity.
Qed.

Lemma try_all_spec {D E} (disk : nat -> D + E) l : forall dflt res t,
  try_all disk l dflt = (res, t) ->
  (exists u, l = t ++ u /\ (forall e, res = inr e -> u = []))
  /\ (forall d, res = inl d -> exists i, In i l /\ disk i = inl d)
  /\ (forall e, res = inr e -> (l = [] /\ e = dflt) \/ exists i, In i l /\ disk i = inr e)
  /\ (forall e, res = inr e -> forall i, In i l -> exists e', disk i = inr e').
Proof.
  induction l as [|i r IH]; intros dflt res t H; cbn [try_all] in H.
  - inversion H; subst. split; [|split; [|split]].
    + exists []. auto.
    + intros d X. discriminate.
    + intros e X. inversion X. auto.
    + intros e X j [].
  - destruct (disk i) as [d|e] eqn:Ed.
    + inversion H; subst. split; [|split; [|split]].
      * exists r. split; [reflexivity|]. intros e X. discriminate.
      * intros d' X. inversion X; subst. exists i. cbn. auto.
      * intros e X. discriminate.
      * intros e X. discriminate.
    + destruct (try_all disk r e) as [res' t'] eqn:ET. inversion H; subst.
      destruct (IH _ _ _ ET) as ([u [Hu1 Hu2]] & Hd & He & Hall).
      split; [|split; [|split]].
      * exists u. split; [cbn; now rewrite Hu1|exact Hu2].
      * intros d X. destruct (Hd d X) as (j & Hj & Hdj). exists j. cbn. auto.
      * intros e1 X. right. destruct (He e1 X) as [[-> ->]|(j & Hj & Hdj)].
        -- exists i. cbn. auto.
        -- exists j. cbn. auto.
      * intros e1 X j [<-|Hj]; [eauto|]. exact (Hall e1 X j Hj).
Qed.

Lemma leaf_present_iff l : leaf_present l = true <-> l = LPresent.
Proof. destruct l; cbn; split; congruence. Qed.

Lemma present_at_iff m i :
  match nth_error m i with Some l => leaf_present l | None => false end = true <-> holds m i.
Proof.
  unfold holds. destruct (nth_error m i) as [l|].
  - rewrite leaf_present_iff. split; congruence.
  - split; discriminate.
Qed.

(** All positions are visited by the cyclic search. *)
Lemma cyclic_covers (n idx i : nat) : (i < n)%nat -> (idx < n)%nat ->
  In i (map (fun j => Nat.modulo j n) (seq idx n)).
Proof.
  intros Hi Hx. apply in_map_iff.
  destruct (Nat.le_gt_cases idx i).
  - exists i. split; [apply Nat.mod_small; lia|]. apply in_seq. lia.
  - exists (i + 1 * n)%nat. split; [rewrite Nat.mod_add by lia; apply Nat.mod_small; lia|].
    apply in_seq. lia.
Qed.

Lemma read_order_spec m idx0 : m <> [] ->
  match read_order m idx0 with
  | None => forall i, ~ holds m i
  | Some (i, rest) => NoDup (i :: rest) /\ (forall j, In j (i :: rest) <-> holds m j)
  end.
Proof.
  intros Hm. unfold read_order.
  set (n := length m). assert (Hn : (0 < n)%nat) by (subst n; destruct m; [congruence|cbn; lia]).
  set (idx := Z.to_nat (idx0 mod Z.of_nat n)).
  assert (Hidx : (idx < n)%nat).
  { subst idx. pose proof (Z.mod_pos_bound idx0 (Z.of_nat n)). lia. }
  destruct (find _ _) as [i|] eqn:EF.
  - apply find_some in EF. destruct EF as [_ HP]. apply present_at_iff in HP.
    split.
    + constructor.
      * rewrite filter_In. intros [_ H]. rewrite Nat.eqb_refl in H. discriminate.
      * apply NoDup_filter. apply seq_NoDup.
    + intros j. cbn [In]. rewrite filter_In, in_seq, andb_true_iff, negb_true_iff, Nat.eqb_neq, present_at_iff.
      split.
      * intros [<-|[_ [_ H]]]; assumption.
      * intros H. destruct (Nat.eq_dec i j) as [->|Ne]; [left; reflexivity|right].
        split; [|split; [congruence|assumption]].
        assert (j < length m)%nat by (apply nth_error_Some; unfold holds in H; congruence).
        subst n. lia.
  - intros i Hi.
    assert (Hb : (i < n)%nat) by (apply nth_error_Some; unfold holds in Hi; congruence).
    pose proof (find_none _ _ EF i (cyclic_covers n idx i Hb Hidx)) as HN. cbn beta in HN.
    apply present_at_iff in Hi. congruence.
Qed.

(** C51: a read of a mirror tries up-to-date disks only, each at most once, and
    gives the data of one of them whenever any of them can be read; otherwise it
    has tried them all and gives an error of one of them, or ENXIO if there are
    none. *)
Theorem C51_mirror_reads {D E} (enxio : E) (m : mirror) (idx : Z) (disk : nat -> D + E) :
  m <> [] ->
  let '(res, tried) := mirror_read enxio m idx disk in
  NoDup tried
  /\ (forall i, In i tried -> holds m i)
  /\ ((exists i d, holds m i /\ disk i = inl d) -> exists i d, res = inl d /\ holds m i /\ disk i = inl d)
  /\ match res with
     | inl d => exists i, holds m i /\ disk i = inl d
     | inr e => (forall i, holds m i -> In i tried /\ exists e', disk i = inr e')
                /\ ((exists i, holds m i /\ disk i = inr e) \/ ((forall i, ~ holds m i) /\ e = enxio))
     end.
Proof.
  intros Hm. unfold mirror_read. pose proof (read_order_spec m idx Hm) as HO.
  destruct (read_order m idx) as [[i rest]|].
  - destruct HO as [HND HIn].
    rewrite (read_retry_try disk rest (length rest) i enxio (le_n _)).
    destruct (try_all disk (i :: rev rest) enxio) as [res t] eqn:ET.
    destruct (try_all_spec disk _ _ _ _ ET) as ([u [Hu Hu0]] & Hd & He & Hall).
    assert (HP : forall j, In j (i :: rev rest) <-> holds m j).
    { intros j. rewrite <- HIn. cbn [In]. rewrite <- in_rev. reflexivity. }
    assert (HND2 : NoDup (i :: rev rest)).
    { inversion HND; subst. constructor; [now rewrite <- in_rev|now apply NoDup_rev]. }
    split; [|split; [|split]].
    + rewrite Hu in HND2. clear -HND2. induction t as [|x t IH]; [constructor|].
      cbn in HND2. inversion HND2; subst. constructor; [|auto].
      intros X. apply H1. apply in_app_iff. auto.
    + intros j Hj. apply HP. rewrite Hu. apply in_app_iff. auto.
    + intros (j & d & Hj & Hdj). destruct res as [d'|e].
      * destruct (Hd d' eq_refl) as (k & Hk & Hdk). exists k, d'. rewrite <- HP. auto.
      * destruct (Hall e eq_refl j (proj2 (HP j) Hj)) as [e' X]. congruence.
    + destruct res as [d|e].
      * destruct (Hd d eq_refl) as (k & Hk & Hdk). exists k. rewrite <- HP. auto.
      * split.
        -- intros j Hj. apply HP in Hj. split; [|exact (Hall e eq_refl j Hj)].
           rewrite Hu, (Hu0 e eq_refl), app_nil_r in Hj. exact Hj.
        -- left. destruct (He e eq_refl) as [[X _]|(k & Hk & Hdk)]; [discriminate|].
           exists k. rewrite <- HP. auto.
  - split; [constructor|]. split; [intros i []|]. split.
    + intros (i & d & Hi & _). destruct (HO i Hi).
    + split; [intros i Hi; destruct (HO i Hi)|]. right. auto.
Qed.

(** Successive reads of a healthy mirror start with successive disks. *)
Theorem C51_round_robin {D E} (enxio : E) (m : mirror) (idx : Z) (disk : nat -> D + E) :
  m <> [] -> (forall l, In l m -> l = LPresent) ->
  exists t, snd (mirror_read enxio m idx disk) = Z.to_nat (idx mod zlen m) :: t.
Proof.
  intros Hm Hall. unfold mirror_read, read_order.
  set (n := length m). assert (Hn : (0 < n)%nat) by (subst n; destruct m; [congruence|cbn; lia]).
  change (zlen m) with (Z.of_nat n).
  set (ix := Z.to_nat (idx mod Z.of_nat n)).
  assert (Hidx : (ix < n)%nat).
  { subst ix. pose proof (Z.mod_pos_bound idx (Z.of_nat n)). lia. }
  destruct n as [|n'] eqn:En; [lia|].
  cbn [seq map find]. rewrite <- En in *. rewrite (Nat.mod_small ix n Hidx).
  assert (HP : holds m ix).
  { unfold holds. destruct (nth_error m ix) as [l|] eqn:El.
    - f_equal. apply Hall. eapply nth_error_In; eauto.
    - apply nth_error_None in El. subst n. lia. }
  rewrite (proj2 (present_at_iff m ix) HP).
  match goal with |- context [read_retry disk ?f ix ?r] =>
    rewrite (read_retry_try disk r f ix enxio (le_n _)) end.
  cbn [try_all]. destruct (disk ix) as [d|e]; [exists []; reflexivity|].
  destruct (try_all disk _ e) as [res t]. exists t. reflexivity.
Qed.

(** Four disks, one of them faulted and one being rebuilt; the first disk to be
    read fails, the other one answers. *)
Example C51_example :
  mirror_read (D := Z) 6 [LPresent; LFaulted; LPresent; LRebuilding] 5
    (fun i => match i with 0%nat => inl 77 | 2%nat => inr 5 | _ => inl 0 end)
  = (inl 77, [2%nat; 0%nat]).
Proof. vm_compute. reflexivity. Qed.

(** ** C52 *)

Definition lost (m : mirror) : Z := count (fun l => negb (leaf_present l)) m.

(** What each kind of health means for a mirror. *)
Definition mirror_says (m : mirror) (h : health) : Prop :=
  match h with
  | Faulted _ => forall i, ~ holds m i
  | Online => (exists i, holds m i) /\ lost m = 0
  | Degraded d => (exists i, holds m i) /\ lost m = d /\ 0 < d
  end.

Lemma count_ext {A} (p q : A -> bool) l : (forall x, In x l -> p x = q x) -> count p l = count q l.
Proof.
  unfold count. intros H. f_equal. f_equal. induction l as [|x l IH]; [reflexivity|].
  cbn [filter]. rewrite (H x) by (left; reflexivity). rewrite IH by (intros; apply H; right; assumption).
  reflexivity.
Qed.

Lemma count_nonneg {A} (p : A -> bool) l : 0 <= count p l.
Proof. unfold count. lia. Qed.

Lemma count_cons {A} (p : A -> bool) x l : count p (x :: l) = (if p x then 1 else 0) + count p l.
Proof. unfold count. cbn [filter]. destruct (p x); cbn [length]; lia. Qed.

Lemma count_le_len {A} (p : A -> bool) l : count p l <= zlen l.
Proof. induction l as [|x l IH]; [now cbn|]. rewrite count_cons, zlen_cons. destruct (p x); lia. Qed.

Lemma count_all {A} (p : A -> bool) l : count p l = zlen l <-> forall x, In x l -> p x = true.
Proof.
  induction l as [|x l IH].
  - split; [intros _ x []|reflexivity].
  - rewrite count_cons, zlen_cons. pose proof (count_le_len p l).
    split.
    + intros H0 y [<-|Hy].
      * destruct (p x); [reflexivity|lia].
      * apply IH; [destruct (p x); lia|assumption].
    + intros H0. rewrite (H0 x) by (left; reflexivity).
      rewrite (proj2 IH) by (intros; apply H0; right; assumption). reflexivity.
Qed.

Lemma count_zero {A} (p : A -> bool) l : count p l = 0 <-> forall x, In x l -> p x = false.
Proof.
  induction l as [|x l IH].
  - split; [intros _ x []|reflexivity].
  - rewrite count_cons. pose proof (count_nonneg p l).
    split.
    + intros H0 y [<-|Hy].
      * destruct (p x); [lia|reflexivity].
      * apply IH; [destruct (p x); lia|assumption].
    + intros H0. rewrite (H0 x) by (left; reflexivity).
      rewrite (proj2 IH) by (intros; apply H0; right; assumption). reflexivity.
Qed.

Lemma sick_lost m : count (fun l => negb (health_eqb (leaf_health l) Online)) m = lost m.
Proof. apply count_ext. intros l _. destruct l; reflexivity. Qed.

Lemma none_holds m : lost m = zlen m <-> forall i, ~ holds m i.
Proof.
  unfold lost. rewrite count_all. split.
  - intros H i Hi. apply nth_error_In in Hi. specialize (H _ Hi). discriminate.
  - intros H x Hx. apply In_nth_error in Hx. destruct Hx as [i Hi].
    destruct x; try reflexivity. destruct (H i Hi).
Qed.

Lemma some_holds m : lost m <> zlen m -> exists i, holds m i.
Proof.
  intros H. induction m as [|x m IH]; [exfalso; apply H; reflexivity|].
  destruct (leaf_present x) eqn:Ex.
  - exists 0%nat. apply leaf_present_iff in Ex. subst. reflexivity.
  - destruct IH as [i Hi].
    + intros X. apply H. unfold lost in *. rewrite count_cons, zlen_cons, Ex, X. reflexivity.
    + exists (S i). exact Hi.
Qed.

Lemma mirror_faulted_iff m : is_faulted (mirror_health m) = true <-> forall i, ~ holds m i.
Proof.
  unfold mirror_health. rewrite sick_lost, <- none_holds.
  destruct (Z.eqb_spec (lost m) (zlen m)); [cbn; tauto|].
  destruct (u8 (lost m) =? 0); cbn; split; congruence.
Qed.

(** C52 for mirrors (and for pools without RAID): what is reported is right, for
    mirrors of up to 255 disks. *)
Theorem C52_mirror m : zlen m < 256 -> mirror_says m (mirror_health m).
Proof.
  intros Hlen. unfold mirror_health. rewrite sick_lost.
  pose proof (count_nonneg (fun l => negb (leaf_present l)) m) as H0. fold (lost m) in H0.
  pose proof (count_le_len (fun l => negb (leaf_present l)) m) as H1. fold (lost m) in H1.
  assert (HU : u8 (lost m) = lost m) by (unfold u8; apply Z.mod_small; lia).
  rewrite HU.
  destruct (Z.eqb_spec (lost m) (zlen m)) as [E|E].
  - cbn. now apply none_holds.
  - destruct (Z.eqb_spec (lost m) 0) as [E0|E0]; cbn.
    + split; [now apply some_holds|assumption].
    + split; [now apply some_holds|]. split; [reflexivity|lia].
Qed.

Example C52_mirror_example :
  mirror_health [LPresent; LFaulted; LPresent; LRebuilding; LMissing] = Degraded 3
  /\ mirror_health [LRebuilding; LMissing] = Faulted InsufficientRedundancy.
Proof. split; vm_compute; reflexivity. Qed.

(** The count of lost disks is cut to 8 bits: with 256 lost disks of 257 a mirror
    is reported as perfectly healthy. *)
Theorem C52_large_mirror_refuted : exists m,
  mirror_health m = Online /\ lost m = 256 /\ ~ mirror_says m (mirror_health m).
Proof.
  exists (LPresent :: repeat LFaulted 256).
  assert (H : mirror_health (LPresent :: repeat LFaulted 256) = Online) by (vm_compute; reflexivity).
  assert (HL : lost (LPresent :: repeat LFaulted 256) = 256) by (vm_compute; reflexivity).
  split; [exact H|]. split; [exact HL|]. rewrite H. cbn [mirror_says]. rewrite HL. intros [_ X]. discriminate.
Qed.

(** *** RAID *)

(** A child that can serve reads of its part of every stripe. *)
Definition serves (c : rchild) : bool :=
  match c with RPresent m => existsb leaf_present m | _ => false end.

(** Data are readable as long as at most [f] children cannot serve. *)
Definition readable (cs : list rchild) (f : Z) : Prop := count (fun c => negb (serves c)) cs <= f.

(** Disks lost by a child; for a mirror of which nothing is known this is one. *)
Definition rlost (c : rchild) : Z :=
  match c with RPresent m => lost m | RFaulted m => zlen m | RMissing => 1 end.

Definition raid_says (r : raid) (h : health) : Prop :=
  let l := fold_right Z.add 0 (map rlost (r_children r)) in
  match h with
  | Faulted _ => ~ readable (r_children r) (r_f r)
  | Online => readable (r_children r) (r_f r) /\ l = 0
  | Degraded d => readable (r_children r) (r_f r) /\ l = d /\ 0 < d
  end.

Inductive rop := FaultMirror (i : nat) | FaultLeaf (i j : nat) | Attach (i : nat) | Restore (i : nat).

Definition rapply (r : raid) (o : rop) : option raid :=
  match o with
  | FaultMirror i => raid_fault_mirror i r
  | FaultLeaf i j => raid_fault_leaf i j r
  | Attach i => raid_attach i r
  | Restore i => raid_restore i r
  end.

(** A refused request changes nothing. *)
Definition rstep (r : raid) (o : rop) : raid := match rapply r o with Some r' => r' | None => r end.

(** The request does not return to service a mirror that was faulted as a whole. *)
Definition no_faulted_restore (r : raid) (o : rop) : Prop :=
  match o with
  | Restore i => forall m, nth_error (r_children r) i <> Some (RFaulted m)
  | _ => True
  end.

Fixpoint rrun (r : raid) (os : list rop) : raid :=
  match os with [] => r | o :: os => rrun (rstep r o) os end.
Fixpoint rrun_ok (r : raid) (os : list rop) : Prop :=
  match os with [] => True | o :: os => no_faulted_restore r o /\ rrun_ok (rstep r o) os end.

Definition rinv (r : raid) : Prop :=
  r_faulted r = count (fun c => negb (rpresent c)) (r_children r)
  /\ (forall c, In c (r_children r) -> rpresent c = serves c)
  /\ (forall m, In (RFaulted m) (r_children r) -> m <> []).

Lemma existsb_holds m : existsb leaf_present m = true <-> exists i, holds m i.
Proof.
  rewrite existsb_exists. split.
  - intros (x & Hx & Hp). apply leaf_present_iff in Hp. subst. apply In_nth_error in Hx. exact Hx.
  - intros [i Hi]. exists LPresent. split; [eapply nth_error_In; eauto|reflexivity].
Qed.

Lemma not_faulted_serves m : is_faulted (mirror_health m) = false -> existsb leaf_present m = true.
Proof.
  intros H. destruct (existsb leaf_present m) eqn:E; [reflexivity|]. exfalso.
  assert (is_faulted (mirror_health m) = true).
  { apply mirror_faulted_iff. intros i Hi. assert (existsb leaf_present m = true) by (apply existsb_holds; eauto).
    congruence. }
  congruence.
Qed.

Lemma count_upd {A} (p : A -> bool) l i x y : nth_error l i = Some x ->
  count p (list_upd l i y) = count p l - (if p x then 1 else 0) + (if p y then 1 else 0).
Proof.
  revert i. induction l as [|a l IH]; intros i H; [destruct i; discriminate|].
  destruct i as [|i]; cbn [nth_error list_upd] in *.
  - inversion H; subst. rewrite !count_cons. lia.
  - rewrite !count_cons, (IH i H). lia.
Qed.

Lemma In_upd {A} (l : list A) i y z : In z (list_upd l i y) -> z = y \/ In z l.
Proof.
  revert i. induction l as [|a l IH]; intros i H; [destruct i; destruct H|].
  destruct i as [|i]; cbn [list_upd In] in *.
  - intuition.
  - destruct H as [->|H]; [auto|]. destruct (IH i H); auto.
Qed.

Lemma rinv_upd r i c c' k :
  rinv r -> nth_error (r_children r) i = Some c ->
  k = (if rpresent c then 1 else 0) - (if rpresent c' then 1 else 0) ->
  rpresent c' = serves c' -> (forall m, c' = RFaulted m -> m <> []) ->
  rinv (Raid (list_upd (r_children r) i c') (r_f r) (r_faulted r + k)).
Proof.
  intros (H1 & H2 & H3) Hc Hk Hs Hf. split; [|split]; cbn.
  - rewrite (count_upd _ _ _ c c' Hc), H1. subst k. destruct (rpresent c), (rpresent c'); cbn; lia.
  - intros x Hx. destruct (In_upd _ _ _ _ Hx) as [->|Hx']; auto.
  - intros m Hx. destruct (In_upd _ _ _ _ Hx) as [E|Hx']; eauto.
Qed.

Lemma serves_restore m : existsb leaf_present m = true -> existsb leaf_present (mirror_restore m) = true.
Proof.
  unfold mirror_restore. rewrite !existsb_exists. intros (x & Hx & Hp). exists (leaf_restore x).
  split; [now apply in_map|]. destruct x; cbn in *; congruence.
Qed.

Lemma rinv_step r o : rinv r -> no_faulted_restore r o -> rinv (rstep r o).
Proof.
  intros HI HOK. unfold rstep. destruct (rapply r o) as [r'|] eqn:E; [|exact HI].
  pose proof HI as (H1 & H2 & H3).
  destruct o as [i|i j|i|i]; cbn [rapply] in E.
  - unfold raid_fault_mirror in E. destruct (nth_error (r_children r) i) as [c|] eqn:Ec; [|discriminate].
    pose proof (nth_error_In _ _ Ec) as Hin. pose proof (H2 c Hin) as Hs.
    destruct c as [m| |m]; cbn in E; inversion E; subst; clear E.
    + apply (rinv_upd r i (RPresent m)); auto. intros m0 X. inversion X; subst.
      cbn in Hs. intros ->. discriminate.
    + apply (rinv_upd r i RMissing); auto. intros m0 X. discriminate.
    + apply (rinv_upd r i (RFaulted m)); auto. intros m0 X. inversion X; subst. auto.
  - unfold raid_fault_leaf in E. destruct (nth_error (r_children r) i) as [[m| |m]|] eqn:Ec; try discriminate.
    destruct (mirror_fault j m) as [m'|] eqn:Em; [|discriminate].
    assert (Hne : m' <> []).
    { unfold mirror_fault in Em. destruct (nth_error m j) as [l|] eqn:El; [|discriminate]. inversion Em.
      destruct m; [destruct j; discriminate|]. destruct j; discriminate. }
    destruct (is_faulted (mirror_health m')) eqn:EF; cbn in E; inversion E; subst; clear E.
    + apply (rinv_upd r i (RPresent m)); auto. intros m0 X. inversion X; subst. assumption.
    + replace (r_faulted r) with (r_faulted r + 0) by lia.
      apply (rinv_upd r i (RPresent m)); auto; [|discriminate].
      cbn. symmetry. now apply not_faulted_serves.
  - unfold raid_attach in E. destruct (nth_error (r_children r) i) as [[m| |m]|] eqn:Ec; try discriminate.
    unfold mirror_attach in E. destruct (existsb leaf_rebuilding m); [discriminate|].
    inversion E; subst; clear E.
    replace (r_faulted r) with (r_faulted r + 0) by lia.
    apply (rinv_upd r i (RPresent m)); auto; [|discriminate].
    cbn. rewrite existsb_app. pose proof (H2 _ (nth_error_In _ _ Ec)) as Hs. cbn in Hs. rewrite <- Hs. reflexivity.
  - unfold raid_restore in E. destruct (nth_error (r_children r) i) as [c|] eqn:Ec; [|discriminate].
    inversion E; subst; clear E.
    replace (r_faulted r) with (r_faulted r + 0) by lia.
    pose proof (H2 _ (nth_error_In _ _ Ec)) as Hs.
    destruct c as [m| |m].
    + apply (rinv_upd r i (RPresent m)); auto; [|discriminate].
      cbn in *. symmetry. apply serves_restore. auto.
    + apply (rinv_upd r i RMissing); auto. discriminate.
    + exfalso. exact (HOK m Ec).
Qed.

Lemma rinv_run os : forall r, rinv r -> rrun_ok r os -> rinv (rrun r os).
Proof.
  induction os as [|o os IH]; intros r HI HOK; [exact HI|].
  destruct HOK as [H1 H2]. cbn. apply IH; [now apply rinv_step|assumption].
Qed.

(** Every mirror that was found has at least one disk in its label. *)
Definition found_ok (ms : list (option mirror)) : Prop := forall m, In (Some m) ms -> m <> [].

Lemma rinv_open ms f : found_ok ms -> rinv (raid_open ms f).
Proof.
  intros HF. split; [|split]; cbn.
  - reflexivity.
  - intros c Hc. apply in_map_iff in Hc. destruct Hc as (o & <- & Ho).
    destruct o as [m|]; [|reflexivity].
    destruct (is_faulted (mirror_health m)) eqn:E; cbn; [reflexivity|].
    symmetry. now apply not_faulted_serves.
  - intros m Hc. apply in_map_iff in Hc. destruct Hc as (o & Eo & Ho).
    destruct o as [m0|]; [|discriminate].
    destruct (is_faulted (mirror_health m0)); inversion Eo; subst. auto.
Qed.

Lemma rinv_health r :
  rinv r -> (forall c, In c (r_children r) -> match c with RPresent m | RFaulted m => zlen m < 256 | RMissing => True end) ->
  (forall h, raid_health r = Some h -> raid_says r h)
  /\ (fold_right Z.add 0 (map rlost (r_children r)) < 256 -> raid_health r <> None).
Proof.
  intros (H1 & H2 & H3) HL.
  assert (Hlack : map child_lack (r_children r) = map rlost (r_children r)).
  { apply map_ext_in. intros c Hc. specialize (HL c Hc). specialize (H2 c Hc).
    destruct c as [m| |m]; unfold child_lack; cbn.
    - pose proof (C52_mirror m HL) as HS. destruct (mirror_health m) as [|d|q] eqn:EM; cbn in HS.
      + symmetry. apply HS.
      + symmetry. apply HS.
      + exfalso. cbn in H2. symmetry in H2. apply existsb_holds in H2. destruct H2 as [i Hi]. exact (HS i Hi).
    - reflexivity.
    - pose proof (zlen_nonneg m). destruct (Z.eqb_spec (zlen m) 0) as [E|E].
      + exfalso. apply (H3 m Hc). now apply zlen_0_nil.
      + unfold u8. apply Z.mod_small. lia. }
  assert (Hnn : forall x, In x (map rlost (r_children r)) -> 0 <= x).
  { intros x Hx. apply in_map_iff in Hx. destruct Hx as (c & <- & _).
    destruct c; cbn; [apply count_nonneg|lia|apply zlen_nonneg]. }
  assert (Hsum : forall l s, u8_sum l = Some s -> s = fold_right Z.add 0 l).
  { induction l as [|x l IH]; intros s Hs; cbn in *; [congruence|].
    destruct (u8_sum l) as [s0|]; [|discriminate]. rewrite (IH s0 eq_refl) in *.
    destruct (x + fold_right Z.add 0 l <? 256); congruence. }
  assert (Hpos : forall l, (forall x, In x l -> 0 <= x) -> 0 <= fold_right Z.add 0 l).
  { induction l as [|x l IH]; intros Hx; cbn; [lia|].
    pose proof (Hx x (or_introl eq_refl)). assert (0 <= fold_right Z.add 0 l) by (apply IH; intros; apply Hx; now right).
    lia. }
  assert (Hsum2 : forall l, (forall x, In x l -> 0 <= x) -> fold_right Z.add 0 l < 256 -> u8_sum l <> None).
  { induction l as [|x l IH]; intros Hx Hs; cbn in *; [discriminate|].
    pose proof (Hx x (or_introl eq_refl)).
    assert (Hx2 : forall y, In y l -> 0 <= y) by (intros; apply Hx; now right).
    specialize (IH Hx2). destruct (u8_sum l) as [s|] eqn:Es.
    - rewrite (Hsum l s Es). destruct (Z.ltb_spec (x + fold_right Z.add 0 l) 256); [discriminate|lia].
    - exfalso. apply IH; [lia|reflexivity]. }
  assert (Hcnt : count (fun c => negb (rpresent c)) (r_children r) = count (fun c => negb (serves c)) (r_children r)).
  { apply count_ext. intros c Hc. f_equal. auto. }
  unfold raid_health, raid_faulted_children. rewrite H1, Z.eqb_refl, Hlack. split.
  - intros h Hh. destruct (u8_sum _) as [d|] eqn:Ed; [|discriminate].
    inversion Hh; subst; clear Hh. apply Hsum in Ed. subst d.
    unfold raid_says, readable. rewrite <- Hcnt.
    rewrite Z.gtb_ltb.
    destruct (Z.ltb_spec (r_f r) (count (fun c => negb (rpresent c)) (r_children r))); cbn; [lia|].
    pose proof (Hpos _ Hnn) as HP.
    destruct (Z.eqb_spec (fold_right Z.add 0 (map rlost (r_children r))) 0); cbn.
    + split; [lia|assumption].
    + split; [lia|]. split; [reflexivity|lia].
  - intros HS. specialize (Hsum2 _ Hnn HS). destruct (u8_sum _); [discriminate|congruence].
Qed.

(** C52 for RAID: what is reported is right after import and any sequence of
    faulting of disks and mirrors, attaching of disks and completed repairs, as
    long as no mirror that was faulted as a whole is returned to service
    (compare [C52_restore_refuted]) and no mirror has more than 255 disks; it is
    reported without panic if fewer than 256 disks are lost. *)
Theorem C52_raid_partial ms f os :
  found_ok ms ->
  let r := rrun (raid_open ms f) os in
  rrun_ok (raid_open ms f) os ->
  (forall c, In c (r_children r) -> match c with RPresent m | RFaulted m => zlen m < 256 | RMissing => True end) ->
  (forall h, raid_health r = Some h -> raid_says r h)
  /\ (fold_right Z.add 0 (map rlost (r_children r)) < 256 -> raid_health r <> None).
Proof.
  intros HF r HOK HL. apply rinv_health; [|assumption].
  apply rinv_run; [|assumption]. now apply rinv_open.
Qed.

Example C52_raid_example :
  let ms := [Some [LPresent; LPresent]; Some [LPresent; LMissing]; Some [LPresent]; None] in
  let os := [Attach 2; FaultLeaf 0 1; Restore 2; FaultLeaf 0 0; FaultMirror 1; Restore 3] in
  found_ok ms /\ rrun_ok (raid_open ms 2) os
  /\ raid_health (raid_open ms 2) = Some (Degraded 2)
  /\ raid_health (rrun (raid_open ms 2) (firstn 4 os)) = Some (Degraded 4)
  /\ raid_health (rrun (raid_open ms 2) os) = Some (Faulted InsufficientRedundancy).
Proof.
  cbn. split; [|split; [|vm_compute; auto]].
  - intros m Hm. cbn in Hm. intuition congruence.
  - repeat split; intros m H; discriminate.
Qed.

(** The exclusion is needed: a mirror is faulted by the administrator between the
    last step of its repair and the return to service ([MirrorRepairTask] gives up
    the pool's lock in between); returning to service then leaves the counter of
    faulted children one too high.  A debug build panics; a release build, which
    does not compare (health as computed from the counter alone), reports a RAID
    device of three healthy disks as faulted after one more loss. *)
Theorem C52_restore_refuted : exists ms os,
  found_ok ms
  /\ raid_health (rrun (raid_open ms 1) os) = None
  /\ readable (r_children (rrun (raid_open ms 1) (os ++ [FaultMirror 1]))) 1
  /\ r_faulted (rrun (raid_open ms 1) (os ++ [FaultMirror 1])) > 1.
Proof.
  exists [Some [LPresent]; Some [LPresent]; Some [LPresent]], [Attach 0; FaultMirror 0; Restore 0].
  split; [|vm_compute; repeat split; congruence].
  intros m Hm. cbn in Hm. intuition congruence.
Qed.

(** *** Pool *)

Lemma health_leb_total a b : health_leb a b = false -> health_leb b a = true.
Proof.
  destruct a as [|x|x], b as [|y|y]; cbn; try congruence; intros H; apply Z.leb_gt in H; apply Z.leb_le; lia.
Qed.
Lemma health_leb_trans a b c : health_leb a b = true -> health_leb b c = true -> health_leb a c = true.
Proof.
  destruct a as [|x|x], b as [|y|y], c as [|z|z]; cbn; try congruence; rewrite !Z.leb_le; lia.
Qed.
Lemma health_leb_refl a : health_leb a a = true.
Proof. destruct a; cbn; try reflexivity; apply Z.leb_refl. Qed.

(** C52 for pools: the health of a pool is that of its sickest cluster; so it is
    faulted exactly if some cluster is, and online exactly if all are. *)
Theorem C52_pool cs h : pool_health cs = Some h ->
  In h cs
  /\ (forall c, In c cs -> health_leb c h = true)
  /\ (is_faulted h = true <-> exists c, In c cs /\ is_faulted c = true)
  /\ (h = Online <-> forall c, In c cs -> c = Online).
Proof.
  assert (HG : forall r a, In (fold_left (fun a b => if health_leb a b then b else a) r a) (a :: r)
            /\ forall c, In c (a :: r) -> health_leb c (fold_left (fun a b => if health_leb a b then b else a) r a) = true).
  { induction r as [|b r IH]; intros a; cbn [fold_left].
    - split; [now left|]. intros c [<-|[]]. apply health_leb_refl.
    - destruct (health_leb a b) eqn:E.
      + destruct (IH b) as [I1 I2]. split; [now right|].
        intros c [<-|Hc].
        * apply (health_leb_trans _ b); [assumption|]. apply I2. now left.
        * apply I2. exact Hc.
      + destruct (IH a) as [I1 I2]. split.
        * destruct I1 as [X|X]; [left; exact X|right; right; exact X].
        * intros c [<-|[<-|Hc]].
          -- apply I2. now left.
          -- apply (health_leb_trans _ a); [now apply health_leb_total|]. apply I2. now left.
          -- apply I2. now right. }
  intros H. destruct cs as [|c r]; [discriminate|]. cbn [pool_health] in H. inversion H; subst; clear H.
  destruct (HG r c) as [H1 H2]. set (h := fold_left _ r c) in *.
  split; [exact H1|]. split; [exact H2|]. split; split.
  - intros HF. exists h. auto.
  - intros (x & Hx & Hf). specialize (H2 x Hx). destruct x, h; cbn in *; congruence.
  - intros E x Hx. specialize (H2 x Hx). rewrite E in H2. destruct x; cbn in *; congruence.
  - intros E. apply E. exact H1.
Qed.

Example C52_pool_example :
  pool_health [Online; Degraded 2; Online; Degraded 1] = Some (Degraded 2)
  /\ pool_health [Degraded 3; Faulted User; Online] = Some (Faulted User).
Proof. split; reflexivity. Qed.

(** ** C63 *)

(** The full claim: a RAID device of which no more children are lost than it
    tolerates can write its labels (without which no transaction is ever
    committed) and read its space map (without which it cannot be imported). *)
Definition C63_statement : Prop :=
  forall ms f (child : nat -> Z + Z), found_ok ms ->
    readable (r_children (raid_open ms f)) f ->
    (forall i m, nth_error (r_children (raid_open ms f)) i = Some (RPresent m) -> exists d, child i = inl d) ->
    raid_write_label (raid_open ms f) <> None
    /\ exists d, raid_read_spacemap 6 child (raid_open ms f) = Some (inl d).

(** Both panic. *)
Theorem C63_degraded_raid_works_refuted : ~ C63_statement.
Proof.
  intros H. destruct (H [None; Some [LPresent]; Some [LPresent]] 1 (fun _ => inl 0)) as [H1 _].
  - intros m Hm. cbn in Hm. intuition congruence.
  - unfold readable. vm_compute. congruence.
  - intros i m _. exists 0. reflexivity.
  - apply H1. reflexivity.
Qed.

Theorem C63_degraded_raid_imported_refuted : exists ms f,
  found_ok ms /\ readable (r_children (raid_open ms f)) f
  /\ forall D E (enxio : E) (child : nat -> D + E), raid_read_spacemap enxio child (raid_open ms f) = None.
Proof.
  exists [None; Some [LPresent]; Some [LPresent]], 1.
  split; [intros m Hm; cbn in Hm; intuition congruence|].
  split; [unfold readable; vm_compute; congruence|].
  intros. reflexivity.
Qed.

(** What does hold: with every mirror present, however many of their disks are
    lost, labels are written, to the up-to-date disks and no others; the space
    map is read if any mirror can read it. *)
Theorem C63_degraded_mirrors_work_partial r :
  (forall c, In c (r_children r) -> rpresent c = true) ->
  raid_write_label r = Some (map (fun c => match c with RPresent m => map leaf_present m | _ => [] end) (r_children r))
  /\ forall D E (enxio : E) (child : nat -> D + E),
     ((exists i d, (i < length (r_children r))%nat /\ child i = inl d) ->
      exists i d, (i < length (r_children r))%nat /\ child i = inl d
                  /\ raid_read_spacemap enxio child r = Some (inl d))
     /\ raid_read_spacemap enxio child r <> None.
Proof.
  destruct r as [cs f k]. cbn [r_children]. intros HP. split.
  - unfold raid_write_label. cbn [r_children].
    induction cs as [|c cs IH]; [reflexivity|]. cbn [fold_right map].
    rewrite IH by (intros; apply HP; now right).
    specialize (HP c (or_introl eq_refl)). destruct c; cbn in HP; try discriminate. reflexivity.
  - intros D E enxio child. unfold raid_read_spacemap. cbn [r_children].
    assert (G : forall cs n e, (forall c, In c cs -> rpresent c = true) ->
      ((exists i d, (i < length cs)%nat /\ child (n + i)%nat = inl d) ->
       exists i d, (i < length cs)%nat /\ child (n + i)%nat = inl d
                   /\ read_spacemap_from child n cs e = Some (inl d))
      /\ read_spacemap_from child n cs e <> None).
    { clear. induction cs as [|c cs IH]; intros n e HP.
      - split; [intros (i & d & Hi & _); cbn in Hi; lia|discriminate].
      - pose proof (HP c (or_introl eq_refl)) as Hc. destruct c as [m| |m]; cbn in Hc; try discriminate.
        cbn [read_spacemap_from length]. destruct (child n) as [d|e'] eqn:Ec.
        + split; [|discriminate]. intros _. exists 0%nat, d. split; [lia|]. split; [|reflexivity].
          now rewrite Nat.add_0_r.
        + destruct (IH (S n) e' (fun c Hc => HP c (or_intror Hc))) as [I1 I2]. split; [|exact I2].
          intros (i & d & Hi & Hd). destruct i as [|i].
          * rewrite Nat.add_0_r in Hd. congruence.
          * destruct I1 as (j & d' & Hj & Hd' & HR).
            { exists i, d. split; [lia|]. now replace (S n + i)%nat with (n + S i)%nat by lia. }
            exists (S j), d'. split; [lia|]. split; [|exact HR].
            now replace (n + S j)%nat with (S n + j)%nat by lia. }
    exact (G cs 0%nat enxio HP).
Qed.

Example C63_example :
  raid_write_label (raid_open [Some [LPresent; LMissing]; Some [LRebuilding; LPresent]] 1)
  = Some [[true; false]; [false; true]]
  /\ raid_read_spacemap 6 (fun i => match i with 0%nat => inr 5 | _ => inl 9 end)
       (raid_open [Some [LPresent; LMissing]; Some [LRebuilding; LPresent]] 1) = Some (inl 9).
Proof. split; vm_compute; reflexivity. Qed.

(** ** C64 *)

Lemma fold_max_spec l : forall a, (forall x, In x l -> x <= fold_left Z.max l a)
  /\ a <= fold_left Z.max l a /\ (fold_left Z.max l a = a \/ In (fold_left Z.max l a) l).
Proof.
  induction l as [|x l IH]; intros a; cbn [fold_left].
  - split; [intros x []|]. split; [lia|auto].
  - destruct (IH (Z.max a x)) as (I1 & I2 & I3). split; [|split].
    + intros y [<-|Hy]; [lia|auto].
    + lia.
    + destruct I3 as [I3|I3]; [|right; now right].
      destruct (Z.max_spec a x) as [[_ M]|[_ M]]; rewrite M in *; [right; left|left]; congruence.
Qed.

(** C64 for mirrors: after import a disk is used for reading exactly if it was
    found and no disk of the mirror carries a later transaction; a disk that is
    found with an earlier one is to be rebuilt. *)
Theorem C64_mirror_import label disks i u :
  NoDup (map fst disks) -> (forall d, In d disks -> 0 <= snd d) ->
  nth_error label i = Some u ->
  exists l, nth_error (mirror_open label disks) i = Some l /\
  match l with
  | LPresent => exists t, In (u, t) disks /\ forall d, In d disks -> snd d <= t
  | LRebuilding => exists t, In (u, t) disks /\ exists d, In d disks /\ t < snd d
  | LMissing => forall t, ~ In (u, t) disks
  | LFaulted => False
  end.
Proof.
  intros HND Hpos Hi. unfold mirror_open.
  set (hi := fold_left Z.max (map snd disks) 0).
  assert (Hhi : forall d, In d disks -> snd d <= hi).
  { intros d Hd. apply fold_max_spec. now apply in_map. }
  assert (Hex : hi = 0 \/ exists d, In d disks /\ snd d = hi).
  { destruct (fold_max_spec (map snd disks) 0) as (_ & _ & [E|E]); [now left|right].
    apply in_map_iff in E. destruct E as (d & Ed & Hd). exists d. auto. }
  eexists. split; [apply map_nth_error; exact Hi|].
  destruct (find (fun d => fst d =? u) disks) as [[u' t]|] eqn:EF.
  - apply find_some in EF. cbn in EF. destruct EF as [Hin Eu]. apply Z.eqb_eq in Eu. subst u'. cbn [snd].
    destruct (Z.eqb_spec t hi) as [->|Ne].
    + exists hi. auto.
    + exists t. split; [assumption|]. pose proof (Hhi _ Hin) as H1. cbn in H1.
      pose proof (Hpos _ Hin) as H2. cbn in H2.
      destruct Hex as [E|(d & Hd & Ed)]; [lia|]. exists d. split; [assumption|]. lia.
  - intros t Hin. pose proof (find_none _ _ EF _ Hin) as H. cbn in H. rewrite Z.eqb_refl in H. discriminate.
Qed.

Example C64_example :
  mirror_open [10; 11; 12; 13] [(12, 5); (10, 7); (13, 7)] = [LPresent; LMissing; LRebuilding; LPresent].
Proof. vm_compute. reflexivity. Qed.

(** For RAID the claim fails: the mirrors of a RAID device are opened one by one
    and their transactions are never compared, so a disk that was away while
    transactions were committed is used as if it were up to date. *)
Theorem C64_raid_import_refuted : exists (labels : list (list Z)) (disks : list (list (Z * Z))),
  let ms := map (fun p => Some (mirror_open (fst p) (snd p))) (combine labels disks) in
  raid_health (raid_open ms 1) = Some Online
  /\ (exists d d', In d (concat disks) /\ In d' (concat disks) /\ snd d < snd d')
  /\ forall c, In c (r_children (raid_open ms 1)) -> serves c = true.
Proof.
  exists [[1]; [2]; [3]], [[(1, 20)]; [(2, 20)]; [(3, 9)]].
  split; [vm_compute; reflexivity|]. split.
  - exists (3, 9), (1, 20). cbn. split; [auto|]. split; [auto|lia].
  - intros c Hc. vm_compute in Hc. intuition; subst; reflexivity.
Qed.

Print Assumptions C51_mirror_reads.
Print Assumptions C51_round_robin.
Print Assumptions C52_mirror.
Print Assumptions C52_large_mirror_refuted.
Print Assumptions C52_raid_partial.
Print Assumptions C52_restore_refuted.
Print Assumptions C52_pool.
Print Assumptions C63_degraded_raid_works_refuted.
Print Assumptions C63_degraded_raid_imported_refuted.
Print Assumptions C63_degraded_mirrors_work_partial.
Print Assumptions C64_mirror_import.
Print Assumptions C64_raid_import_refuted.
