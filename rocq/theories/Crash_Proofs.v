(** Proofs about crashes. *)
From Verif Require Import Common ZMap FSM_Model FSM_Spec FSM_Proofs FSM_Inv FSM_Props Crash_Model.

Definition exts (l : list item) : list extent := map fst l.

(** Every extent of [l] holds what was written there. *)
Definition holds_all (d : Z -> option Z) (l : list item) : Prop :=
  forall e id lba, In (e, id) l -> within lba e = true -> d lba = Some id.

Lemma within_iff l e : within l e = true <-> fst e <= l < fst e + snd e.
Proof. unfold within. lia. Qed.

Lemma exts_remove e l : exts (remove_item e l) = remove_one e (exts l).
Proof. induction l as [|[x i] l IH]; [reflexivity|]. cbn [remove_item exts map remove_one fst]. destruct (extent_eqb e x); [reflexivity|]. cbn [map fst]. now f_equal. Qed.

Lemma remove_item_in e x l : In x (remove_item e l) -> In x l.
Proof. induction l as [|y l IH]; [easy|]. cbn [remove_item]. destruct (extent_eqb e (fst y)); [now right|]. intros [->|H]; [now left|right; auto]. Qed.

Lemma blank_out es : forall d l, (forall e, In e es -> within l e = false) -> blank d es l = d l.
Proof.
  induction es as [|e es IH]; intros d l H; [reflexivity|]. unfold blank in *. cbn [fold_left]. rewrite IH by (intros; apply H; now right).
  unfold fill. now rewrite (H e (or_introl eq_refl)).
Qed.

Section Crash.
Context (v : vdev) (G : geometry v).

(** [e] lies in zone [z]; and the device has gone past it there. *)
Definition placed (z : Z) (e : extent) : Prop := 0 < snd e /\ 0 <= z < v_zones v /\ zstart v z <= fst e /\ fst e + snd e <= zend v z.
Definition passed (w : dz) (e : extent) : Prop := w = DFull \/ exists wp, w = DOpen wp /\ fst e + snd e <= wp.
Definition safe (d : Z -> dz) (e : extent) : Prop := exists z, placed z e /\ passed (d z) e.

Lemma zones_apart z z' l : 0 <= z < v_zones v -> 0 <= z' < v_zones v -> zstart v z <= l < zend v z -> zstart v z' <= l < zend v z' -> z = z'.
Proof. intros A B C D. pose proof (proj2 (g_zone_of v G l z) (conj A C)). pose proof (proj2 (g_zone_of v G l z') (conj B D)). congruence. Qed.

Lemma inv_dinv c live cl tr d : Inv v c live cl tr -> (forall z, d z = dz_v v z (view (fs c) z)) -> dinv v d.
Proof.
  intros I H z wp E. rewrite H in E. destruct (view (fs c) z) as [| |oz x|] eqn:V; try discriminate. injection E as <-.
  pose proof (view_range (fs c) z ltac:(congruence)) as Hr. pose proof (r_len _ (i_rep _ _ _ _ _ I)). pose proof (i_tot _ _ _ _ _ I).
  pose proof (i_zone _ _ _ _ _ I z ltac:(lia)) as ZI. rewrite V in ZI. cbn [zone_inv] in ZI. unfold zstart, zend in *. lia.
Qed.

Lemma inv_safe c live cl tr d : Inv v c live cl tr -> (forall z, d z = dz_v v z (view (fs c) z)) -> forall e, In e live -> safe d e.
Proof.
  intros I H e He. destruct (l_in _ _ (i_live _ _ _ _ _ I) e He) as (P & z & Hz & Hi & A & B). exists z. split; [split; auto|].
  pose proof (i_zone _ _ _ _ _ I z Hz) as ZI. unfold passed. rewrite H. destruct (view (fs c) z) as [|s t|oz x|x]; cbn [zone_inv dz_v] in *.
  - exfalso. pose proof (lsum_zero_none v live z (i_live _ _ _ _ _ I) ZI e He). congruence.
  - now left.
  - right. eexists. split; [reflexivity|]. destruct ZI as (_ & _ & _ & _ & L & _). now apply L.
  - now left.
Qed.

Lemma safe_run l d d' e : dinv v d -> dev_run v d l = Some d' -> (forall z, ~ In (VErase z) l) -> safe d e -> safe d' e.
Proof.
  intros I E N (z & P & Q). exists z. split; [exact P|]. unfold passed in *. destruct (dev_no_erase v z (fst e + snd e) G l d d' I) as [_ X]; auto.
Qed.


Lemma dinv_run l : forall d d', dinv v d -> dev_run v d l = Some d' -> dinv v d'.
Proof.
  induction l as [|o l IH]; intros d d' I E; [now injection E as <-|]. cbn [dev_run] in E. destruct (dev_step v d o) as [d1|] eqn:E1; [|discriminate].
  cbn [obind] in E. eapply IH; [|exact E]. eapply dev_step_dinv; eauto.
Qed.

(** A write accepted by the device does not touch what the device has passed. *)
Lemma write_apart l d d' e z lba len : dinv v d -> dev_run v d l = Some d' -> (forall z, ~ In (VErase z) l) -> safe d e ->
  In (VWrite z lba len) l -> disjoint e (lba, len).
Proof.
  intros I E N SF W. apply in_split in W. destruct W as (l1 & l2 & ->). rewrite dev_run_app in E by auto.
  destruct (dev_run v d l1) as [d1|] eqn:E1; [|discriminate]. cbn [obind dev_run] in E.
  assert (S1 : safe d1 e) by (eapply safe_run; eauto; intros y Y; apply (N y); apply in_or_app; now left).
  assert (I1 : dinv v d1) by (eapply dinv_run; eauto). clear E1 SF.
  cbn [dev_step] in E. destruct (d1 z) as [|wp|] eqn:D; try discriminate.
  destruct ((0 <? len) && (wp =? lba) && (lba + len <=? snd (v_lim v z))) eqn:B; [|discriminate].
  destruct (I1 z wp D) as [Hz Hw]. destruct S1 as (z' & (P1 & P2 & P3 & P4) & Q). intros y [Y1 Y2]. cbn [fst snd] in Y2.
  assert (z' = z) as -> by (apply (zones_apart z' z y); unfold zstart, zend in *; auto; lia).
  destruct Q as [Q|(wp' & Q & Q')]; [congruence|]. rewrite D in Q. injection Q as <-. lia.
Qed.

(** Nor does padding an open zone. *)
Lemma padding_apart c live cl tr d e p : Inv v c live cl tr -> (forall z, d z = dz_v v z (view (fs c) z)) -> safe d e ->
  In p (padding v c) -> disjoint e p.
Proof.
  intros I H (z & (P1 & P2 & P3 & P4) & Q) Hp. unfold padding in Hp. apply in_map_iff in Hp. destruct Hp as ([y oz] & <- & Hp). cbn [snd].
  destruct (open_case (fs c) (i_rep _ _ _ _ _ I) (i_one _ _ _ _ _ I)) as [NO|(y' & oz' & x & V & OP)].
  { rewrite (proj1 NO) in Hp. destruct Hp. }
  rewrite OP in Hp. destruct Hp as [[= -> ->]|[]].
  pose proof (view_range (fs c) y ltac:(congruence)) as Hr. pose proof (r_len _ (i_rep _ _ _ _ _ I)). pose proof (i_tot _ _ _ _ _ I).
  pose proof (i_zone _ _ _ _ _ I y ltac:(lia)) as ZI. rewrite V in ZI. cbn [zone_inv] in ZI. destruct ZI as (A & B & C & _).
  pose proof (gap_fits v G y (oalloc oz) ltac:(lia) ltac:(lia)) as [F _]. intros l [L1 L2]. cbn [fst snd] in L2.
  assert (z = y) as -> by (apply (zones_apart z y l); auto; lia).
  destruct Q as [Q|(wp & Q & Q')]; rewrite H, V in Q; cbn [dz_v] in Q; [discriminate|]. injection Q as <-. lia.
Qed.

(** ** What the operations tell the device *)

Lemma close_zones_trace zs txg : forall f a f' a' o, close_zones zs txg f a = Some (f', a', o) -> forall x, In x o -> exists z, x = VFinish z.
Proof.
  induction zs as [|z zs IH]; intros f a f' a' o E x Hx; cbn [close_zones] in E.
  - injection E as <- <- <-. destruct Hx.
  - destruct (finish_zone z txg f) as [[f1 n]|]; [|discriminate]. cbn [obind] in E. destruct (close_zones zs txg f1 (a + n)) as [[[f2 a2] o2]|] eqn:E2; [|discriminate].
    cbn [obind] in E. injection E as <- <- <-. destruct Hx as [<-|Hx]; [eauto|]. eapply IH; eauto.
Qed.

Lemma write_trace space txg c c' r o : write v space txg c = Some (c', r, o) ->
  (forall z, ~ In (VErase z) o) /\ sm c' = sm c /\ (forall lba, r = WOk lba -> exists z, In (VWrite z lba space) o).
Proof.
  unfold write. intros E. destruct (try_allocate space (fs c)) as [[[f r0] nf]|]; [|discriminate]. cbn [obind] in E.
  destruct (close_zones nf txg f (alloc_space c)) as [[[f1 a] o1]|] eqn:EC; [|discriminate]. cbn [obind] in E.
  assert (N : forall z, ~ In (VErase z) o1) by (intros z Y; destruct (close_zones_trace _ _ _ _ _ _ _ EC _ Y); discriminate).
  destruct r0 as [[z lba]|].
  - injection E as <- <- <-. split; [|split; [reflexivity|]].
    + intros y Y. apply in_app_or in Y. destruct Y as [Y|[Y|[]]]; [now apply N in Y|discriminate].
    + intros l [= ->]. exists z. apply in_or_app. right. now left.
  - destruct (find_empty f1) as [z|].
    + destruct (open_zone z (fst (v_lim v z)) (snd (v_lim v z)) space txg f1) as [[f2 e]|]; [|discriminate]. cbn [obind] in E.
      destruct e as [[[z' lba]|]|]; try discriminate; injection E as <- <- <-.
      * split; [|split; [reflexivity|]].
        -- intros y Y. apply in_app_or in Y. destruct Y as [Y|[Y|[Y|[]]]]; [now apply N in Y|discriminate|discriminate].
        -- intros l [= ->]. exists z. apply in_or_app. right. right. now left.
      * split; [exact N|]. split; [reflexivity|discriminate].
    + injection E as <- <- <-. split; [exact N|]. split; [reflexivity|discriminate].
Qed.

Lemma waste_all_trace zs : forall f a f' a' o, waste_all v zs f a = Some (f', a', o) -> forall x, In x o -> exists z g, x = VFlush z g.
Proof.
  induction zs as [|z zs IH]; intros f a f' a' o E x Hx; cbn [waste_all] in E.
  - injection E as <- <- <-. destruct Hx.
  - destruct (zm_get z (opens f)) as [oz|]; [|discriminate]. cbn [obind] in E. cbv zeta in E.
    destruct (waste_space z (gap_of v (oalloc oz)) f) as [f1|]; [|discriminate]. cbn [obind] in E.
    destruct (waste_all v zs f1 (a + gap_of v (oalloc oz))) as [[[f2 a2] o2]|] eqn:E2; [|discriminate].
    cbn [obind] in E. injection E as <- <- <-. destruct Hx as [<-|Hx]; [eauto|]. eapply IH; eauto.
Qed.

Lemma flush_trace idx c c' o : flush v idx c = Some (c', o) -> forall z, ~ In (VErase z) o.
Proof.
  unfold flush. intros E. destruct (waste_all v (map fst (opens (fs c))) (fs c) (alloc_space c)) as [[[f a] o1]|] eqn:EW; [|discriminate]. cbn [obind] in E.
  destruct (write_blocks f idx _ (sm c)) as [m|]; [|discriminate]. cbn [obind] in E. injection E as <- <-.
  intros z Y. destruct (waste_all_trace _ _ _ _ _ _ EW _ Y) as (? & ? & ?). discriminate.
Qed.

Lemma free_sm lba len c c' : free v lba len c = Some c' -> sm c' = sm c.
Proof.
  unfold free. intros E. destruct (v_zone_of v lba) as [z|]; [|discriminate]. cbn [obind] in E. destruct (fsm_free z len (fs c)) as [f|]; [|discriminate]. cbn [obind] in E.
  destruct (if is_closed f z then in_use f z else Some 1) as [u|]; [|discriminate]. cbn [obind] in E. destruct (u =? 0).
  - destruct (kill_zone z f) as [[f' a]|]; [|discriminate]. cbn [obind] in E. now injection E as <-.
  - now injection E as <-.
Qed.

Lemma advance_sm c : sm (fst (advance c)) = sm c.
Proof. unfold advance. now destruct (reap (fs c)). Qed.

(** ** Mounting depends on space map 0 only *)

Definition same_sm0 (c c' : cluster) : Prop := forall b, 0 <= b < spacemap_space (v_zones v) -> sm c 0 b = sm c' 0 b.

Lemma inv_sm c live cl tr c' : Inv v c live cl tr -> fs c' = fs c -> alloc_space c' = alloc_space c -> same_sm0 c' c -> Inv v c' live cl tr.
Proof.
  intros I F A S0. destruct I. split; rewrite ?F, ?A; auto. intros b Hb D. unfold synced. rewrite (S0 b Hb), F. now apply i_sync.
Qed.

Lemma omap_ext {A B} (g h : A -> option B) l : (forall x, In x l -> g x = h x) -> omap g l = omap h l.
Proof. induction l as [|x l IH]; intros H; [reflexivity|]. cbn [omap]. rewrite (H x (or_introl eq_refl)). destruct (h x); [|reflexivity]. cbn [obind]. rewrite IH; [reflexivity|]. intros y Y. apply H. now right. Qed.

Lemma reopen_same c c0 live tr : Inv v c0 live true tr -> same_sm0 c c0 ->
  exists c' o, reopen v c = Some (c', o) /\ Inv v c' live true (tr ++ o) /\ sm c' = sm c.
Proof.
  intros I S0. destruct (reopen_spec v G c0 live tr I) as (c1 & o & E & I1 & _ & _). unfold reopen in E |- *.
  assert (D : deserialize v c = deserialize v c0).
  { unfold deserialize. f_equal. apply omap_ext. intros b Hb. apply in_zrange in Hb. apply S0. lia. }
  rewrite D. destruct (deserialize v c0) as [[f o']|]; [|discriminate]. cbn [obind] in E |- *. destruct (allocated_total f) as [a|]; [|discriminate]. cbn [obind] in E |- *.
  injection E as <- <-. eexists _, _. split; [reflexivity|]. split; [|reflexivity]. eapply inv_sm; [exact I1| | |]; try reflexivity. exact S0.
Qed.

(** ** The invariant *)

(** The pool last committed [com]; [settled]: space map 0 still is the one that
    goes with it. *)
Record committed (p : pool) (d : Z -> dz) (com : list item) : Prop := {
  k_data : holds_all (data p) com;
  k_safe : forall e, In e (exts com) -> safe d e;
  k_vol : forall e x, In e (exts com) -> In x (vol p) -> disjoint e x }.

Definition settled (p : pool) (com : list item) : Prop := exists c0 tr0, Inv v c0 (exts com) true tr0 /\ same_sm0 (cl p) c0.

Record PI (p : pool) (com : option (list item)) : Prop := {
  p_inv : exists cln tr d, Inv v (cl p) (exts (live p)) cln tr /\ dev_run v (fun _ => DEmpty) tr = Some d /\
            (forall z, d z = dz_v v z (view (fs (cl p)) z)) /\ (forall l, com = Some l -> committed p d l);
  p_live : holds_all (data p) (live p);
  p_label : label0 p = com /\ (com = None -> label1 p = None);
  p_settled : ph p <> Sm0Done -> forall l, com = Some l -> settled p l;
  p_synced : ph p <> Idle -> (forall z, view (fs (cl p)) z = pad_v v (view (fs (cl p)) z)) /\
             (forall b, 0 <= b < spacemap_space (v_zones v) -> synced v (cl p) b);
  p_same : ph p = Label0Done \/ ph p = Sm1Done \/ ph p = Label1Done -> com = Some (live p) }.

Lemma disjoint_within e x l : disjoint e x -> within l e = true -> within l x = false.
Proof. intros D W. destruct (within l x) eqn:X; [|reflexivity]. exfalso. apply (D l). split; now apply within_iff. Qed.

Lemma disjoint_sym e x : disjoint e x -> disjoint x e.
Proof. intros D l [A B]. apply (D l). auto. Qed.

Lemma in_exts e i l : In (e, i) l -> In e (exts l).
Proof. intros H. apply in_map_iff. exists (e, i). auto. Qed.

Lemma clean_inv c live cl tr : Inv v c live cl tr -> (forall b, 0 <= b < spacemap_space (v_zones v) -> synced v c b) ->
  cl = true -> Inv v c live true tr.
Proof. intros I _ ->. exact I. Qed.

Lemma PI_create : PI (pool_create v) None.
Proof.
  constructor; cbn [pool_create cl live data label0 label1 ph]; try discriminate; auto.
  - exists false, [], (fun _ => DEmpty). split; [apply inv_init; exact G|]. split; [reflexivity|]. split; [intros z; cbn; now rewrite view_new|discriminate].
  - intros e id lba [].
  - intros X. now destruct X.
  - intros [X|[X|X]]; discriminate.
Qed.

Lemma write_PI p com space txg : PI p com -> ph p = Idle -> 0 < space < 2^32 -> 0 <= txg < TXG_MAX ->
  exists p', pdo v p (PWrite space txg) = Some p' /\ PI p' com.
Proof.
  intros [(cln & tr & d & I & Hd & Hv & K) L (LB0 & LB1) ST SY SM] IDLE H1 H2. cbn [pdo].
  destruct (write_inv v G (cl p) _ cln tr space txg I H1 H2) as (c' & r & o & E & I' & _). rewrite E. cbn [obind].
  destruct (write_trace _ _ _ _ _ _ E) as (NE & SMc & WT).
  destruct (i_dev _ _ _ _ _ I') as (d' & Hd' & Hv'). pose proof Hd' as Hr. rewrite dev_run_app, Hd in Hr by auto. cbn [obind] in Hr.
  pose proof (inv_dinv _ _ _ _ _ I Hv) as DI.
  destruct r as [lba|]; cbn [live_next] in I'; eexists; (split; [reflexivity|]).
  - destruct (WT lba eq_refl) as (z & WIN).
    assert (AP : forall e, safe d e -> disjoint e (lba, space)) by (intros e S; eapply write_apart; eauto).
    constructor; cbn [cl live data label0 label1 ph vol].
    + exists false, (tr ++ o), d'. split; [exact I'|]. split; [exact Hd'|]. split; [exact Hv'|]. intros l Hl. destruct (K l Hl) as [K1 K2 K3]. constructor; cbn [data vol].
      * intros e id y He Hy. unfold fill. rewrite (disjoint_within e (lba, space) y); [eapply K1; eauto| |exact Hy]. apply AP, K2. eapply in_exts; eauto.
      * intros e He. eapply safe_run; eauto.
      * intros e x He [<-|Hx]; [apply AP; now apply K2|now apply K3].
    + intros e id y [[= <- <-]|He] Hy; unfold fill.
      * now rewrite Hy.
      * rewrite (disjoint_within e (lba, space) y); [eapply L; eauto| |exact Hy]. apply AP. apply (inv_safe _ _ _ _ _ I Hv). eapply in_exts; eauto.
    + split; assumption.
    + intros N l Hl. destruct (ST N l Hl) as (c0 & tr0 & I0 & S0). exists c0, tr0. split; [exact I0|]. intros b Hb. cbn [cl]. rewrite SMc. now apply S0.
    + rewrite IDLE. now intros [].
    + rewrite IDLE. intros [X|[X|X]]; discriminate.
  - constructor; cbn [cl live data label0 label1 ph vol].
    + exists false, (tr ++ o), d'. split; [exact I'|]. split; [exact Hd'|]. split; [exact Hv'|]. intros l Hl. destruct (K l Hl) as [K1 K2 K3]. constructor; cbn [data vol]; auto.
      intros e He. eapply safe_run; eauto.
    + exact L.
    + split; assumption.
    + intros N l Hl. destruct (ST N l Hl) as (c0 & tr0 & I0 & S0). exists c0, tr0. split; [exact I0|]. intros b Hb. cbn [cl]. rewrite SMc. now apply S0.
    + rewrite IDLE. now intros [].
    + rewrite IDLE. intros [X|[X|X]]; discriminate.
Qed.

Lemma free_PI p com lba len : PI p com -> ph p = Idle -> In (lba, len) (exts (live p)) ->
  exists p', pdo v p (PFree lba len) = Some p' /\ PI p' com.
Proof.
  intros [(cln & tr & d & I & Hd & Hv & K) L (LB0 & LB1) ST SY SM] IDLE H1. cbn [pdo].
  destruct (free_inv v G (cl p) _ cln tr lba len I H1) as (c' & E & I'). rewrite E. cbn [obind]. pose proof (free_sm _ _ _ _ E) as SMc.
  destruct (i_dev _ _ _ _ _ I') as (d' & Hd' & Hv'). pose proof Hd' as Hr. rewrite dev_run_app, Hd in Hr by auto. cbn [obind dev_run] in Hr. injection Hr as <-.
  eexists. split; [reflexivity|]. constructor; cbn [cl live data label0 label1 ph vol].
  - exists false, (tr ++ []), d. rewrite exts_remove. split; [exact I'|]. split; [exact Hd'|]. split; [exact Hv'|]. intros l Hl. destruct (K l Hl) as [K1 K2 K3]. constructor; auto.
  - intros e id y He. apply remove_item_in in He. now apply L.
  - split; assumption.
  - intros N l Hl. destruct (ST N l Hl) as (c0 & tr0 & I0 & S0). exists c0, tr0. split; [exact I0|]. intros b Hb. cbn [cl]. rewrite SMc. now apply S0.
  - rewrite IDLE. now intros [].
  - rewrite IDLE. intros [X|[X|X]]; discriminate.
Qed.

Lemma holds_blank d l es : holds_all d l -> (forall e x, In e (exts l) -> In x es -> disjoint e x) -> holds_all (blank d es) l.
Proof. intros H A e id y He Hy. rewrite blank_out; [eapply H; eauto|]. intros x Hx. eapply disjoint_within; [|exact Hy]. apply A; auto. eapply in_exts; eauto. Qed.

Lemma sm0_PI p com : PI p com -> ph p = Idle -> exists p', pdo v p PSm0 = Some p' /\ PI p' com.
Proof.
  intros [(cln & tr & d & I & Hd & Hv & K) L (LB0 & LB1) ST SY SM] IDLE. cbn [pdo].
  destruct (flush_spec v G (cl p) _ cln tr 0 I (or_introl eq_refl)) as (c' & o & E & I' & V' & S'). rewrite E. cbn [obind].
  pose proof (flush_trace _ _ _ _ E) as NE. pose proof (inv_dinv _ _ _ _ _ I Hv) as DI.
  destruct (i_dev _ _ _ _ _ I') as (d' & Hd' & Hv'). pose proof Hd' as Hr. rewrite dev_run_app, Hd in Hr by auto. cbn [obind] in Hr.
  eexists. split; [reflexivity|]. constructor; cbn [cl live data label0 label1 ph vol].
  - exists true, (tr ++ o), d'. split; [exact I'|]. split; [exact Hd'|]. split; [exact Hv'|]. intros l Hl. destruct (K l Hl) as [K1 K2 K3]. constructor; cbn [data vol].
    + apply holds_blank; [exact K1|]. intros e x He Hx. apply (padding_apart _ _ _ _ _ _ _ I Hv); auto.
    + intros e He. eapply safe_run; eauto.
    + intros e x He Hx. apply in_app_or in Hx. destruct Hx as [Hx|Hx]; [apply (padding_apart _ _ _ _ _ _ _ I Hv); auto|now apply K3].
  - apply holds_blank; [exact L|]. intros e x He Hx. apply (padding_apart _ _ _ _ _ _ _ I Hv); [apply (inv_safe _ _ _ _ _ I Hv); exact He|exact Hx].
  - split; assumption.
  - now intros [].
  - intros _. split; [|exact S']. intros z. rewrite V'. now rewrite pad_idem.
  - intros [X|[X|X]]; discriminate.
Qed.

Lemma all_clean c live cl tr : Inv v c live cl tr -> (forall b, 0 <= b < spacemap_space (v_zones v) -> synced v c b) -> 
  exists c0, Inv v c0 live true tr /\ same_sm0 c c0 /\ (forall z, view (fs c0) z = view (fs c) z).
Proof.
  intros I SY. exists (mkcl (clear_dirty (fs c)) (alloc_space c) (sm c)). split; [|split; [intros b _; reflexivity|reflexivity]].
  destruct I. split; cbn [fs alloc_space sm]; auto.
  - now apply rep_set_dirty.
  - intros b Hb _. exact (SY b Hb).
Qed.

Lemma label0_PI p com : PI p com -> ph p = Sm0Done -> exists p', pdo v p PLabel0 = Some p' /\ PI p' (Some (live p)).
Proof.
  intros [(cln & tr & d & I & Hd & Hv & K) L (LB0 & LB1) ST SY SM] PH. cbn [pdo]. eexists. split; [reflexivity|].
  destruct (SY ltac:(rewrite PH; discriminate)) as [PV SS].
  constructor; cbn [cl live data label0 label1 ph vol]; auto; try discriminate.
  - exists cln, tr, d. split; [exact I|]. split; [exact Hd|]. split; [exact Hv|]. intros l [= <-]. constructor; cbn [data vol]; [exact L| |easy].
    eapply inv_safe; eauto.
  - split; [reflexivity|discriminate].
  - intros _ l [= <-]. destruct (all_clean _ _ _ _ I SS) as (c0 & I0 & S0 & _). exists c0, tr. auto.
Qed.

Lemma pads_empty c live cl tr x : Inv v c live cl tr -> (forall z, view (fs c) z = pad_v v (view (fs c) z)) -> In x (padding v c) -> snd x = 0.
Proof.
  intros I PV Hp. unfold padding in Hp. apply in_map_iff in Hp. destruct Hp as ([y oz] & <- & Hp). cbn [snd].
  destruct (open_case (fs c) (i_rep _ _ _ _ _ I) (i_one _ _ _ _ _ I)) as [NO|(y' & oz' & x0 & V & OP)].
  { rewrite (proj1 NO) in Hp. destruct Hp. }
  rewrite OP in Hp. destruct Hp as [[= -> ->]|[]].
  specialize (PV y). rewrite V in PV. cbn [pad_v] in PV. injection PV as PV _. destruct oz as [os oa]. cbn [ostart oalloc] in *. injection PV as PV. lia.
Qed.

Lemma sm1_PI p com : PI p com -> ph p = Label0Done -> exists p', pdo v p PSm1 = Some p' /\ PI p' com.
Proof.
  intros [(cln & tr & d & I & Hd & Hv & K) L (LB0 & LB1) ST SY SM] PH. cbn [pdo].
  destruct (SY ltac:(rewrite PH; discriminate)) as [PV SS]. specialize (SM (or_introl PH)).
  destruct (flush_spec v G (cl p) _ cln tr 1 I (or_intror (conj PV SS))) as (c' & o & E & I' & V' & S'). rewrite E. cbn [obind].
  pose proof (flush_trace _ _ _ _ E) as NE. pose proof (inv_dinv _ _ _ _ _ I Hv) as DI.
  destruct (i_dev _ _ _ _ _ I') as (d' & Hd' & Hv'). pose proof Hd' as Hr. rewrite dev_run_app, Hd in Hr by auto. cbn [obind] in Hr.
  eexists. split; [reflexivity|]. constructor; cbn [cl live data label0 label1 ph vol].
  - exists true, (tr ++ o), d'. split; [exact I'|]. split; [exact Hd'|]. split; [exact Hv'|]. intros l Hl. destruct (K l Hl) as [K1 K2 K3]. constructor; cbn [data vol].
    + apply holds_blank; [exact K1|]. intros e x He Hx. apply (padding_apart _ _ _ _ _ _ _ I Hv); auto.
    + intros e He. eapply safe_run; eauto.
    + intros e x He Hx. apply (padding_apart _ _ _ _ _ _ _ I Hv); auto.
  - apply holds_blank; [exact L|]. intros e x He Hx. apply (padding_apart _ _ _ _ _ _ _ I Hv); [apply (inv_safe _ _ _ _ _ I Hv); exact He|exact Hx].
  - split; assumption.
  - intros _ l Hl. rewrite SM in Hl. injection Hl as <-. exists c', (tr ++ o). split; [exact I'|]. intros b _. reflexivity.
  - intros _. split; [|exact S']. intros z. rewrite V'. now rewrite pad_idem.
  - auto.
Qed.

Lemma label1_PI p com : PI p com -> ph p = Sm1Done -> exists p', pdo v p PLabel1 = Some p' /\ PI p' com.
Proof.
  intros [(cln & tr & d & I & Hd & Hv & K) L (LB0 & LB1) ST SY SM] PH. cbn [pdo]. eexists. split; [reflexivity|].
  destruct (SY ltac:(rewrite PH; discriminate)) as [PV SS]. specialize (SM (or_intror (or_introl PH))).
  constructor; cbn [cl live data label0 label1 ph vol]; auto; try discriminate.
  - exists cln, tr, d. split; [exact I|]. split; [exact Hd|]. split; [exact Hv|]. intros l Hl. destruct (K l Hl) as [K1 K2 K3]. constructor; cbn [data vol]; auto. easy.
  - split; [exact LB0|congruence].
  - intros _ l Hl. apply ST; auto. rewrite PH. discriminate.
Qed.

Lemma erased_apart c live cl tr e x : Inv v c live cl tr -> In e live -> In x (erased v (snd (advance c))) -> disjoint e x.
Proof.
  intros I He Hx. unfold erased in Hx. apply in_concat in Hx. destruct Hx as (g & Hg & Hx). apply in_map_iff in Hg. destruct Hg as (o & <- & Ho).
  pose proof (advance_inv v c live cl tr I) as (_ & A & _). cbv zeta in A.
  destruct o as [z|z ? ?|z ?|z|z|z ?]; try (now destruct Hx). destruct Hx as [<-|[]]. apply A in Ho. destruct Ho as (s & t & V).
  pose proof (view_range (fs c) z ltac:(congruence)) as Hr. pose proof (r_len _ (i_rep _ _ _ _ _ I)). pose proof (i_tot _ _ _ _ _ I).
  pose proof (i_zone _ _ _ _ _ I z ltac:(lia)) as ZI. rewrite V in ZI. cbn [zone_inv] in ZI.
  pose proof (lsum_zero_none v live z (i_live _ _ _ _ _ I) (proj1 ZI) e He) as N.
  destruct (l_in _ _ (i_live _ _ _ _ _ I) e He) as (P & z' & Hz' & Hi & B1 & B2).
  intros l [L1 L2]. unfold zone_extent in L2. cbn [fst snd] in L2. assert (z' = z) as -> by (apply (zones_apart z' z l); unfold zstart, zend in *; auto; lia). congruence.
Qed.

Lemma advance_PI p com : PI p com -> ph p = Label1Done -> exists p', pdo v p PAdvance = Some p' /\ PI p' com.
Proof.
  intros [(cln & tr & d & I & Hd & Hv & K) L (LB0 & LB1) ST SY SM] PH. cbn [pdo].
  specialize (SM (or_intror (or_intror PH))). pose proof (advance_inv v _ _ _ _ I) as (I' & _ & _). cbv zeta in I'.
  pose proof (advance_sm (cl p)) as SMc.
  assert (EA' : forall e x, In e (exts (live p)) -> In x (erased v (snd (advance (cl p)))) -> disjoint e x) by (intros e x A B; exact (erased_apart _ _ _ _ e x I A B)).
  destruct (advance (cl p)) as [c' o]. cbn [fst snd] in *. eexists. split; [reflexivity|].
  destruct (i_dev _ _ _ _ _ I') as (d' & Hd' & Hv').
  constructor; cbn [cl live data label0 label1 ph vol].
  - exists false, (tr ++ o), d'. split; [exact I'|]. split; [exact Hd'|]. split; [exact Hv'|]. intros l Hl. rewrite SM in Hl. injection Hl as <-. constructor; cbn [data vol].
    + now apply holds_blank.
    + eapply inv_safe; eauto.
    + exact EA'.
  - now apply holds_blank.
  - split; assumption.
  - intros _ l Hl. destruct (ST ltac:(rewrite PH; discriminate) l Hl) as (c0 & tr0 & I0 & S0). exists c0, tr0. split; [exact I0|]. intros b Hb. cbn [cl]. rewrite SMc. now apply S0.
  - now intros [].
  - intros [X|[X|X]]; discriminate.
Qed.

Lemma mount_PI p c com l l1 dt n : PI p com -> com = Some l -> ph p <> Sm0Done -> same_sm0 c (cl p) ->
  (forall y, (forall e, In e (vol p) -> within y e = false) -> dt y = data p y) ->
  exists p', mount v c (Some l) l1 dt n = Some p' /\ PI p' com /\ live p' = l.
Proof.
  intros [(cln & tr & d & I & Hd & Hv & K) L (LB0 & LB1) ST SY SM] -> PH SM0 HD. unfold mount. cbn [obind].
  destruct (ST PH l eq_refl) as (c0 & tr0 & I0 & S0).
  assert (S1 : same_sm0 c c0) by (intros b Hb; rewrite SM0 by auto; now apply S0).
  destruct (reopen_same c c0 _ _ I0 S1) as (c' & o & E & I' & SMc). rewrite E. cbn [obind]. eexists. split; [reflexivity|]. split; [|reflexivity].
  destruct (K l eq_refl) as [K1 K2 K3]. destruct (i_dev _ _ _ _ _ I') as (d' & Hd' & Hv').
  assert (HA : holds_all dt l).
  { intros e id y He Hy. rewrite HD; [eapply K1; eauto|]. intros x Hx. eapply disjoint_within; [|exact Hy]. apply K3; auto. eapply in_exts; eauto. }
  constructor; cbn [cl live data label0 label1 ph vol]; auto; try discriminate.
  - exists true, (tr0 ++ o), d'. split; [exact I'|]. split; [exact Hd'|]. split; [exact Hv'|]. intros l' [= <-]. constructor; cbn [data vol]; [exact HA| |easy]. eapply inv_safe; eauto.
  - split; [reflexivity|discriminate].
  - intros _ l' [= <-]. exists c', (tr0 ++ o). split; [exact I'|]. intros b _. reflexivity.
  - intros X. now destruct X.
Qed.

End Crash.
