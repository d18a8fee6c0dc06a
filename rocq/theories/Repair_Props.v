(** C18, C65: repairing a disk of a mirror while the pool is in use. *)
From Verif Require Import Common ZMap FSM_Model FSM_Spec FSM_Proofs FSM_Inv FSM_Props PrimeS_Model PrimeS_Proofs PrimeS_Proofs2 PrimeS_Props Repair_Model Repair_Proofs.

(** ** Vocabulary *)

(** The disk holds every block that the pool's users have stored. *)
Definition complete (live : list extent) (d : disk) : Prop :=
  forall e l, In e live -> fst e <= l < fst e + snd e -> d_good d l = true.

(** What the label of a disk promises: a closed zone that was last written before
    the label's transaction is on the disk. *)
Definition trustworthy (v : vdev) (c : cluster) (d : disk) : Prop :=
  forall z, 0 <= z < v_zones v -> is_closed (fs c) z = true -> te_of (fs c) z <= d_txg d ->
  forall l, fst (v_lim v z) <= l < snd (v_lim v z) -> d_good d l = true.

(** A disk just added to the mirror. *)
Definition new_disk : disk := Disk (fun _ => false) 0.

(** A history of the pool and the repair, each event being allowed by [ok]. *)
Inductive repairs (v : vdev) (ok : world -> event -> Prop) : world -> list event -> world -> Prop :=
| rep_nil w : repairs v ok w [] w
| rep_cons w e w1 es w2 : ok w e -> wstep v w e = Some w1 -> repairs v ok w1 es w2 -> repairs v ok w (e :: es) w2.

(** The users do what they may do, and (this is the restriction) only write in
    transactions later than the end of every zone that the repair has listed so far,
    plus one. *)
Definition late_writes (w : world) (e : event) : Prop :=
  match e with
  | EOp op => FSM_Spec.legal (w_live w) false op
              /\ match op with CWrite _ txg => t_next (w_task w) <= txg < TXG_MAX - 2 | _ => True end
  | EStep => True
  end.

(** As above; and no zone is erased while it is on the repair's list.  The last
    clause only says that time does not run backwards. *)
Definition careful (v : vdev) (w : world) (e : event) : Prop :=
  late_writes w e /\
  match e with
  | EOp op =>
    (forall c' r o z, step v (w_c w) op = Some (c', r, o) -> In (VErase z) o -> ~ In z (t_zones (w_task w)))
    /\ match op with
       | CWrite _ txg => d_txg (w_disk w) <= txg /\ forall z, is_open (fs (w_c w)) z = true -> ts_of (fs (w_c w)) z <= txg
       | _ => True
       end
  | EStep => True
  end.

(** What any user does: as [late_writes], with no restriction on transactions but
    that they do not decrease ([t] is the transaction of the last write). *)
Fixpoint in_order (t : Z) (es : list event) : Prop :=
  match es with
  | [] => True
  | EOp (CWrite _ txg) :: r => t <= txg < TXG_MAX - 2 /\ in_order txg r
  | _ :: r => in_order t r
  end.
Definition any_use (w : world) (e : event) : Prop :=
  match e with EOp op => FSM_Spec.legal (w_live w) false op | EStep => True end.

(** ** Proofs *)

Lemma closed_view v c live cl tr z x : Inv v c live cl tr -> view (fs c) z = ZClosed x ->
  0 <= z /\ is_closed (fs c) z = true /\ te_of (fs c) z = te x /\ ts_of (fs c) z = ts x.
Proof.
  intros I V. pose proof (view_range (fs c) z ltac:(congruence)) as Hr.
  destruct (view_ts _ _ _ V). pose proof (i_rep _ _ _ _ _ I) as R. rewrite is_closed_view, V by (auto; lia). repeat split; auto; lia.
Qed.

Lemma live_in_view v c live cl tr e l : geometry v -> Inv v c live cl tr -> In e live -> fst e <= l < fst e + snd e ->
  exists z, 0 <= z < v_zones v /\ fst (v_lim v z) <= l < snd (v_lim v z) /\
    ((exists x, view (fs c) z = ZClosed x)
     \/ exists oz x, view (fs c) z = ZOpen oz x /\ l < fst (v_lim v z) + oalloc oz).
Proof.
  intros G I He Hl. pose proof (i_live _ _ _ _ _ I) as L.
  destruct (l_in v live L e He) as (Hp & z & Hz & Hi & S1 & S2). unfold zstart, zend in *.
  exists z. split; [exact Hz|]. split; [lia|].
  pose proof (i_zone _ _ _ _ _ I z Hz) as ZI.
  pose proof (lsum_pos v z live e (live_pos v live L) He Hi) as Hs.
  destruct (view (fs c) z) as [|s t|oz x|x] eqn:V; cbn [zone_inv] in ZI.
  - lia.
  - lia.
  - right. exists oz, x. split; [reflexivity|]. destruct ZI as (_ & _ & _ & _ & ZI & _).
    specialize (ZI e He Hi). unfold zstart in ZI. lia.
  - left. eauto.
Qed.

Section C18.
Context (v : vdev) (G : geometry v).
Context (c : cluster) (live : list extent) (cl : bool) (tr : list vop) (Hreach : reach v c live cl tr).
Context (d : disk) (Hlabel : 0 <= d_txg d < TXG_MAX) (Htrust : trustworthy v c d).
Context (Hends : forall z, 0 <= z < v_zones v -> is_closed (fs c) z = true -> te_of (fs c) z < TXG_MAX - 1).

Let w0 := World c live d (repair_start (fs c) (d_txg d)) false.

Lemma start_ok : WI v w0 /\ zrange_ok v w0.
Proof.
  pose proof (reach_inv v G _ _ _ _ Hreach) as I. eapply start_inv; eauto.
  - intros z x Hz V. destruct (closed_view v c live cl tr z x I V) as (_ & Hc & <- & _). now apply Hends.
  - intros z x Hz V Hle l Hl. destruct (closed_view v c live cl tr z x I V) as (_ & Hc & Ht & _).
    apply (Htrust z Hz Hc); [lia|exact Hl].
Qed.

Lemma repairs_ok es : forall w w', WI v w -> zrange_ok v w -> repairs v late_writes w es w' -> WI v w' /\ zrange_ok v w'.
Proof.
  induction es as [|e es IH]; intros w w' W R H; inversion H; subst; [auto|].
  match goal with HO : late_writes _ _, HS : wstep _ _ _ = Some _ |- _ => destruct (WI_step v G _ _ _ W R HO HS) as [W1 R1] end.
  eapply IH; eauto.
Qed.

(** The repair, if its first phase ends, comes to its end, and then the disk holds
    everything: what is in zones closed before or during the repair, and in the zone
    that is open. *)
Theorem C18_repair_complete_partial es w :
  repairs v late_writes w0 es w -> w_done w = true ->
  (exists fuel w', finalize v fuel w = Some w')
  /\ forall fuel w', finalize v fuel w = Some w' -> w_live w' = w_live w /\ complete (w_live w') (w_disk w').
Proof.
  intros H Hd. destruct start_ok as [W0 R0]. destruct (repairs_ok es _ _ W0 R0 H) as [W R].
  pose proof (WI_FI v w W R) as F. split.
  - apply finalize_total; auto; [|now apply (wi_next _ _ W)]. now apply (wi_done _ _ W).
  - intros fuel w' E. destruct (finalize_good v fuel w w' F E) as (Ec & El & Hg).
    split; [exact El|]. rewrite El. intros e l He Hl.
    destruct (wi_inv _ _ W) as (cl' & tr' & I).
    destruct (live_in_view v _ _ _ _ e l G I He Hl) as (z & Hz & Hlz & [(x & V)|(oz & x & V & Ha)]);
      specialize (Hg z Hz); rewrite V in Hg; apply Hg; lia.
Qed.

End C18.

(** ** Where the full claim fails *)

Fixpoint wrun (v : vdev) (w : world) (es : list event) : option world :=
  match es with
  | [] => Some w
  | e :: r => match wstep v w e with Some w' => wrun v w' r | None => None end
  end.

Fixpoint uses (v : vdev) (ok : world -> event -> Prop) (w : world) (es : list event) : Prop :=
  match es with
  | [] => True
  | e :: r => ok w e /\ match wstep v w e with Some w' => uses v ok w' r | None => True end
  end.

Lemma wrun_repairs v ok es : forall w w', uses v ok w es -> wrun v w es = Some w' -> repairs v ok w es w'.
Proof.
  induction es as [|e es IH]; intros w w' U E; cbn [uses wrun] in *.
  - injection E as <-. constructor.
  - destruct U as [U1 U2]. destruct (wstep v w e) as [w1|] eqn:Ew; [|discriminate].
    econstructor; eauto.
Qed.

(** Zone 0 is closed in transaction 5, and the repair begins: the next list is to
    begin at transaction 7.  Zone 1 is filled and closed in transaction 6, so its
    end is 7 too, and it is never listed. *)
Definition missed_ops : list cop := [CWrite 10 5; CWrite 10 5].
Definition missed_events : list event := [EOp (CWrite 10 6); EStep; EStep].

Definition world_at (v : vdev) (ops : list cop) (d : disk) : option world :=
  match run v (cluster_create v) [] false [] ops with
  | Some (c, live, _, _) => Some (World c live d (repair_start (fs c) (d_txg d)) false)
  | None => None
  end.

Theorem C18_repair_complete_refuted : exists v c live cl tr es w w' fuel,
  geometry v /\ reach v c live cl tr /\ in_order 5 es /\
  (forall z, 0 <= z < v_zones v -> is_closed (fs c) z = true -> te_of (fs c) z <= 6) /\
  repairs v any_use (World c live new_disk (repair_start (fs c) 0) false) es w /\
  w_done w = true /\ finalize v fuel w = Some w' /\ ~ complete (w_live w') (w_disk w').
Proof.
  destruct (run v5 (cluster_create v5) [] false [] missed_ops) as [[[[c live] cl] tr]|] eqn:E; [|vm_compute in E; discriminate].
  assert (A : all_legal v5 (cluster_create v5) [] false missed_ops) by (vm_compute; intuition congruence).
  assert (R : reach v5 c live cl tr) by (eapply run_reach; [apply reach_init|exact A|exact E]).
  set (w0 := World c live new_disk (repair_start (fs c) 0) false).
  destruct (wrun v5 w0 missed_events) as [w|] eqn:Ew.
  2: { exfalso. subst w0. vm_compute in E. injection E as <- <- <- <-. vm_compute in Ew. discriminate. }
  destruct (finalize v5 10 w) as [w'|] eqn:Ef.
  2: { exfalso. subst w0. vm_compute in E. injection E as <- <- <- <-. vm_compute in Ew. injection Ew as <-. vm_compute in Ef. discriminate. }
  exists v5, c, live, cl, tr, missed_events, w, w', 10%nat.
  split; [exact v5_geometry|]. split; [exact R|]. split; [vm_compute; intuition congruence|].
  subst w0. vm_compute in E. injection E as <- <- <- <-.
  split.
  { intros z Hz. assert (Hc : z = 0 \/ z = 1 \/ z = 2 \/ z = 3 \/ z = 4) by (cbn in Hz; lia). clear Hz.
    destruct Hc as [ -> |[ -> |[ -> |[ -> | -> ]]]]; vm_compute; congruence. }
  split; [apply wrun_repairs; [vm_compute; intuition congruence|exact Ew]|].
  vm_compute in Ew. injection Ew as <-. split; [reflexivity|]. split; [exact Ef|].
  vm_compute in Ef. injection Ef as <-. intros C.
  specialize (C (10, 10) 12). cbn in C. assert (X : false = true); [|discriminate].
  apply C; [auto|lia].
Qed.

(** Two closed zones are listed; the second, which is the last one of the vector, is
    emptied, and erased at the end of the transaction; the vector is shortened.  The
    step on the first zone then reads the second zone's record: a panic. *)
Definition panic_ops : list cop := [CWrite 10 1; CWrite 10 1; CWrite 10 1; CFree 0 10; CAdvance; CWrite 5 2].
Definition panic_events : list event := [EOp (CFree 20 10); EOp CAdvance].

Theorem C18_delete_during_repair_refuted : exists v c live cl tr es w,
  geometry v /\ reach v c live cl tr /\
  repairs v late_writes (World c live new_disk (repair_start (fs c) 0) false) es w /\
  w_done w = false /\ wstep v w EStep = None.
Proof.
  destruct (run v5 (cluster_create v5) [] false [] panic_ops) as [[[[c live] cl] tr]|] eqn:E; [|vm_compute in E; discriminate].
  assert (A : all_legal v5 (cluster_create v5) [] false panic_ops) by (vm_compute; intuition congruence).
  assert (R : reach v5 c live cl tr) by (eapply run_reach; [apply reach_init|exact A|exact E]).
  set (w0 := World c live new_disk (repair_start (fs c) 0) false).
  destruct (wrun v5 w0 panic_events) as [w|] eqn:Ew.
  2: { exfalso. subst w0. vm_compute in E. injection E as <- <- <- <-. vm_compute in Ew. discriminate. }
  exists v5, c, live, cl, tr, panic_events, w.
  split; [exact v5_geometry|]. split; [exact R|].
  subst w0. vm_compute in E. injection E as <- <- <- <-.
  split; [apply wrun_repairs; [vm_compute; intuition congruence|exact Ew]|].
  vm_compute in Ew. injection Ew as <-. split; vm_compute; reflexivity.
Qed.

(** For a RAID of mirrors: eleven stripes have been written to the open zone (zone 0)
    and disk 2 holds chunks of them, yet nothing is copied to it. *)
Theorem C18_raid_open_zone_refuted : exists L cs lbas disk i fuel,
  PrimeS_Props.legal L /\ 0 < cs /\ lbas mod (cs * (lk L - lf L)) = 0 /\
  0 <= i < lbas / cs /\ l_disk (id2loc L (Data i)) = disk /\
  snd (iter_collect L fuel (iter_new L (Data (lbas / cs - ln L)) (Data (lbas / cs)))) = true /\
  raid_repair_lbas fuel L cs disk lbas = None.
Proof.
  exists (Layout 5 4 1), 2, 66, 2, 26, 200%nat.
  split.
  - split; [|cbn; lia]. destruct (is_prime_spec 5) as (b & H & Hb).
    vm_compute in H. injection H as <-. apply Hb. reflexivity.
  - vm_compute. intuition congruence.
Qed.

(** * C65: the label of a disk under repair *)

Section C65.
Context (v : vdev) (G : geometry v).
Context (c : cluster) (live : list extent) (cl : bool) (tr : list vop) (Hreach : reach v c live cl tr).
Context (d : disk) (Hlabel : 0 <= d_txg d < TXG_MAX) (Htrust : trustworthy v c d).
Context (Hends : forall z, 0 <= z < v_zones v -> is_closed (fs c) z = true ->
                 0 <= ts_of (fs c) z < te_of (fs c) z /\ te_of (fs c) z < TXG_MAX - 1).
Context (Hopen : forall z, 0 <= z < v_zones v -> is_open (fs c) z = true -> 0 <= ts_of (fs c) z).

Let w0 := World c live d (repair_start (fs c) (d_txg d)) false.

Lemma careful_ok es : forall w w', WI v w -> zrange_ok v w -> LI v w -> repairs v (careful v) w es w' ->
  WI v w' /\ zrange_ok v w' /\ LI v w'.
Proof.
  induction es as [|e es IH]; intros w w' W R L H; inversion H as [|w1 e1 w2 es1 w3 HO HS HR]; subst; [auto|].
  destruct HO as [HO1 HO2]. destruct (WI_step v G _ _ _ W R HO1 HS) as [W1 R1].
  pose proof (LI_step v G _ _ _ W R L HO1 HO2 HS) as L1. eapply IH; eauto.
Qed.

(** At every moment of the repair the label of the disk promises no more than what
    has been copied; so an interrupted repair can be resumed from the label.  And no
    step of the repair panics. *)
Theorem C65_label_sound_partial es w :
  repairs v (careful v) w0 es w -> trustworthy v (w_c w) (w_disk w) /\ (w_done w = false -> wstep v w EStep <> None).
Proof.
  intros H. pose proof (reach_inv v G _ _ _ _ Hreach) as I.
  assert (Hcv : forall z x, view (fs c) z = ZClosed x ->
     0 <= z < v_zones v /\ is_closed (fs c) z = true /\ te_of (fs c) z = te x /\ ts_of (fs c) z = ts x).
  { intros z x V. pose proof (in_range v _ _ _ _ z I ltac:(congruence)).
    destruct (closed_view v c live cl tr z x I V) as (_ & Hc & Ht & Hs). auto. }
  assert (Hg : forall z x, 0 <= z < v_zones v -> view (fs c) z = ZClosed x -> te x <= d_txg d -> good_zone v d z).
  { intros z x Hz V Hle l Hl. destruct (Hcv z x V) as (_ & Hc & Ht & _). apply (Htrust z Hz Hc); [lia|exact Hl]. }
  destruct (start_inv v c live cl tr d I) as [W0 R0]; auto.
  { intros z x Hz V. destruct (Hcv z x V) as (_ & Hc & <- & _). now apply Hends. }
  assert (L0 : LI v w0).
  { eapply start_label; eauto.
    - intros z x V. destruct (Hcv z x V) as (Hz & Hc & <- & <-). now apply Hends.
    - intros z oz x V. pose proof (in_range v _ _ _ _ z I ltac:(congruence)) as Hz.
      destruct (view_ts_open _ _ _ _ V) as [<- _]. apply Hopen; [exact Hz|].
      unfold is_open. rewrite is_open_view, V by apply I. reflexivity. }
  destruct (careful_ok es _ _ W0 R0 L0 H) as (W & R & L). split.
  - destruct (wi_inv _ _ W) as (cl' & tr' & I').
    intros z Hz Hc Hle l Hl. pose proof (i_rep _ _ _ _ _ I') as Rp.
    rewrite is_closed_view in Hc by (auto; lia).
    destruct (view (fs (w_c w)) z) as [| | |x] eqn:V; try discriminate.
    destruct (view_ts _ _ _ V) as [_ Et]. apply (li_sound _ _ L z x Hz V); [lia|exact Hl].
  - intros Hd. now apply step_no_panic.
Qed.

End C65.

(** The full claim fails: a zone on the list is emptied, erased and opened again.
    Its new first transaction, 50, is taken for the one at which the list continues,
    and after the first zone the label is set to 49, though zones 2, 3 and 4 are yet
    to be copied.  (The label is not held back, because no zone was open when the
    repair began: the pool was full.) *)
Definition label_ops : list cop :=
  [CWrite 10 1; CWrite 10 2; CWrite 10 3; CWrite 10 4; CWrite 10 5; CWrite 10 5].
Definition label_events : list event := [EOp (CFree 10 10); EOp CAdvance; EOp (CWrite 5 50); EStep].

Theorem C65_label_sound_refuted : exists v c live cl tr es w,
  geometry v /\ reach v c live cl tr /\
  repairs v late_writes (World c live new_disk (repair_start (fs c) 0) false) es w /\
  ~ trustworthy v (w_c w) (w_disk w).
Proof.
  destruct (run v5 (cluster_create v5) [] false [] label_ops) as [[[[c live] cl] tr]|] eqn:E; [|vm_compute in E; discriminate].
  assert (A : all_legal v5 (cluster_create v5) [] false label_ops) by (vm_compute; intuition congruence).
  assert (R : reach v5 c live cl tr) by (eapply run_reach; [apply reach_init|exact A|exact E]).
  set (w0 := World c live new_disk (repair_start (fs c) 0) false).
  destruct (wrun v5 w0 label_events) as [w|] eqn:Ew.
  2: { exfalso. subst w0. vm_compute in E. injection E as <- <- <- <-. vm_compute in Ew. discriminate. }
  exists v5, c, live, cl, tr, label_events, w.
  split; [exact v5_geometry|]. split; [exact R|].
  subst w0. vm_compute in E. injection E as <- <- <- <-.
  split; [apply wrun_repairs; [vm_compute; intuition congruence|exact Ew]|].
  vm_compute in Ew. injection Ew as <-. intros T. specialize (T 2).
  assert (X : false = true); [|discriminate].
  apply (T ltac:(cbn; lia) ltac:(vm_compute; reflexivity) ltac:(vm_compute; congruence) 25 ltac:(cbn; lia)).
Qed.

(** ** A concrete repair that meets the hypotheses *)

(** Zones 0 and 1 are closed, zone 2 open; during the repair zone 2 is closed, an
    extent of zone 0 is freed, and zone 3 opened. *)
Definition good_ops : list cop := [CWrite 6 1; CWrite 4 1; CWrite 10 3; CWrite 8 5].
Definition good_events : list event :=
  [EStep; EOp (CFree 0 6); EOp (CWrite 9 9); EOp CAdvance; EStep; EOp CSync; EStep; EOp (CWrite 1 11); EStep; EStep; EStep; EStep].

Definition carefulb (v : vdev) (w : world) (e : event) : bool :=
  match e with
  | EOp op =>
    match op with
    | CWrite sp txg =>
      (0 <? sp) && (sp <? 2^32) && (0 <=? txg) && (t_next (w_task w) <=? txg) && (txg <? TXG_MAX - 2)
      && (d_txg (w_disk w) <=? txg) && forallb (fun p => ts_of (fs (w_c w)) (fst p) <=? txg) (opens (fs (w_c w)))
    | CFree lba len => existsb (extent_eqb (lba, len)) (w_live w)
    | CRemount => false
    | _ => true
    end
    && match step v (w_c w) op with
       | Some (_, _, o) => forallb (fun x => match x with VErase z => negb (existsb (Z.eqb z) (t_zones (w_task w))) | _ => true end) o
       | None => true
       end
  | EStep => true
  end.

Lemma carefulb_ok v w e : carefulb v w e = true -> careful v w e.
Proof.
  destruct e as [op|]; [|intros _; split; exact Logic.I]. unfold carefulb, careful, late_writes. intros H. apply andb_prop in H. destruct H as [H He].
  assert (Her : forall c' r o z, step v (w_c w) op = Some (c', r, o) -> In (VErase z) o -> ~ In z (t_zones (w_task w))).
  { intros c' r o z Es Hz Hi. rewrite Es in He. rewrite forallb_forall in He. specialize (He _ Hz). cbn in He.
    apply negb_true_iff in He. assert (existsb (Z.eqb z) (t_zones (w_task w)) = true); [|congruence].
    apply existsb_exists. exists z. split; [exact Hi|apply Z.eqb_refl]. }
  destruct op as [sp txg|lba len| | |]; cbn [FSM_Spec.legal]; try discriminate.
  - rewrite !andb_true_iff, forallb_forall in H. destruct H as (((((( H1 & H2) & H3) & H4) & H5) & H6) & H7).
    unfold TXG_MAX in *. repeat split; try lia; auto.
    intros z Hz. unfold is_open in Hz. apply zm_mem_in in Hz. destruct Hz as [oz Hz].
    specialize (H7 _ Hz). cbn [fst] in H7. lia.
  - apply existsb_exists in H. destruct H as (e & Hi & Ee). apply extent_eqb_eq in Ee. subst e. exact (conj (conj Hi Logic.I) (conj Her Logic.I)).
  - exact (conj (conj Logic.I Logic.I) (conj Her Logic.I)).
  - exact (conj (conj Logic.I Logic.I) (conj Her Logic.I)).
Qed.

Fixpoint usesb (v : vdev) (w : world) (es : list event) : bool :=
  match es with
  | [] => true
  | e :: r => carefulb v w e && match wstep v w e with Some w' => usesb v w' r | None => true end
  end.
Lemma usesb_ok v es : forall w, usesb v w es = true -> uses v (careful v) w es.
Proof.
  induction es as [|e es IH]; intros w H; cbn [uses usesb] in *; [exact Logic.I|].
  apply andb_prop in H. destruct H as [H1 H2]. split; [now apply carefulb_ok|].
  destruct (wstep v w e); auto.
Qed.

Lemma five z : 0 <= z < 5 -> z = 0 \/ z = 1 \/ z = 2 \/ z = 3 \/ z = 4.
Proof. lia. Qed.

Example repair_example : exists c live cl tr w w',
  reach v5 c live cl tr /\ trustworthy v5 c new_disk /\
  (forall z, 0 <= z < v_zones v5 -> is_closed (fs c) z = true ->
             0 <= ts_of (fs c) z < te_of (fs c) z /\ te_of (fs c) z < TXG_MAX - 1) /\
  repairs v5 (careful v5) (World c live new_disk (repair_start (fs c) 0) false) good_events w /\
  w_done w = true /\ finalize v5 20 w = Some w' /\ length (w_live w') = 5%nat /\ d_txg (w_disk w) = 2.
Proof.
  destruct (run v5 (cluster_create v5) [] false [] good_ops) as [[[[c live] cl] tr]|] eqn:E; [|vm_compute in E; discriminate].
  assert (A : all_legal v5 (cluster_create v5) [] false good_ops) by (vm_compute; intuition congruence).
  assert (R : reach v5 c live cl tr) by (eapply run_reach; [apply reach_init|exact A|exact E]).
  exists c, live, cl, tr. set (w0 := World c live new_disk (repair_start (fs c) 0) false).
  destruct (wrun v5 w0 good_events) as [w|] eqn:Ew.
  2: { exfalso. subst w0. vm_compute in E. injection E as <- <- <- <-. vm_compute in Ew. discriminate. }
  destruct (finalize v5 20 w) as [w'|] eqn:Ef.
  2: { exfalso. subst w0. vm_compute in E. injection E as <- <- <- <-. vm_compute in Ew. injection Ew as <-. vm_compute in Ef. discriminate. }
  exists w, w'. split; [exact R|].
  subst w0. vm_compute in E. injection E as <- <- <- <-.
  split; [|split; [|split]].
  - intros z Hz Hc Hle. exfalso. revert Hc Hle. destruct (five z Hz) as [ -> |[ -> |[ -> |[ -> | -> ]]]]; vm_compute; intuition congruence.
  - intros z Hz. destruct (five z Hz) as [ -> |[ -> |[ -> |[ -> | -> ]]]]; vm_compute; intuition congruence.
  - apply wrun_repairs; [|exact Ew]. apply usesb_ok. vm_compute. reflexivity.
  - vm_compute in Ew. injection Ew as <-. split; [reflexivity|]. split; [exact Ef|].
    vm_compute in Ef. injection Ef as <-. split; reflexivity.
Qed.

Print Assumptions C18_repair_complete_partial.
Print Assumptions C18_repair_complete_refuted.
Print Assumptions C18_delete_during_repair_refuted.
Print Assumptions C18_raid_open_zone_refuted.
Print Assumptions C65_label_sound_partial.
Print Assumptions C65_label_sound_refuted.
