(** C76: a disk that the mirror reads from holds everything, whatever disks were faulted and added before. *)
From Verif Require Import Common ZMap FSM_Model FSM_Spec FSM_Proofs FSM_Inv FSM_Props Vdev_Model Repair_Model Repair_Proofs Repair_Props Replace_Model.
From Verif Require Crash_Proofs.

(** ** Vocabulary *)

(** Disk [d] has every block that the pool's users have stored. *)
Definition holds (live : list extent) (d : mdisk) : Prop :=
  forall e l, In e live -> fst e <= l < fst e + snd e -> m_has d l = true.

(** Reads are only served from present disks (C51, C71); all of them have everything. *)
Definition readable_complete (w : mworld) : Prop :=
  forall d, In d (mw_disks w) -> m_leaf d = LPresent -> holds (mw_live w) d.

Definition unfinished (t : tstate) : bool := match t with Over => false | _ => true end.

(** How the pool is used: writes are in transactions later than the zones that a repair has listed (the restriction of C18), and, the restriction of
    this property, a disk is only added once every earlier repair has returned. *)
Definition orderly (w : mworld) (e : mevent) : Prop :=
  match e with
  | MOp op =>
      FSM_Spec.legal (mw_live w) false op /\
      match op with
      | CWrite _ txg => txg < TXG_MAX - 2 /\
          forall t, In t (mw_tasks w) -> match t with Pending x => x <= txg | Running t | Closing t => t_next t <= txg | Over => True end
      | _ => True
      end
  | MAttach => forall t, In t (mw_tasks w) -> unfinished t = false
  | _ => True
  end.

(** The same without the last restriction. *)
Definition unordered (w : mworld) (e : mevent) : Prop := match e with MAttach => True | _ => orderly w e end.

Inductive history (v : vdev) (ok : mworld -> mevent -> Prop) : mworld -> list mevent -> mworld -> Prop :=
| h_nil w : history v ok w [] w
| h_cons w e w1 es w2 : ok w e -> mstep v w e = Some w1 -> history v ok w1 es w2 -> history v ok w (e :: es) w2.

(** A pool that has just been opened: the disks that are up to date have everything, and a repair is about to begin for those that are not; these
    have what their labels say. *)
Record opened (v : vdev) (w : mworld) : Prop := {
  op_reach : exists cl tr, reach v (mw_c w) (mw_live w) cl tr;
  op_ends : forall z, 0 <= z < v_zones v -> is_closed (fs (mw_c w)) z = true -> te_of (fs (mw_c w)) z < TXG_MAX - 1;
  op_present : readable_complete w;
  op_tasks : (mw_tasks w = [] /\ forall d, In d (mw_disks w) -> m_leaf d <> LRebuilding)
             \/ exists x, mw_tasks w = [Pending x] /\ 0 <= x < TXG_MAX /\
                  forall d e l z, In d (mw_disks w) -> m_leaf d = LRebuilding -> In e (mw_live w) -> fst e <= l < fst e + snd e ->
                  0 <= z < v_zones v -> fst (v_lim v z) <= l < snd (v_lim v z) ->
                  is_closed (fs (mw_c w)) z = true -> te_of (fs (mw_c w)) z <= x -> m_has d l = true
}.

(** ** Proofs *)

Section C76.
Context (v : vdev) (G : geometry v).
Notation zs z := (fst (v_lim v z)).
Notation ze z := (snd (v_lim v z)).

Lemma write_only space txg c c' r o : write v space txg c = Some (c', r, o) ->
  forall z lba len, In (VWrite z lba len) o -> r = WOk lba /\ len = space.
Proof.
  unfold write. intros E z0 lba0 len0 Hin. destruct (try_allocate space (fs c)) as [[[f r0] nf]|]; [|discriminate]. cbn [obind] in E.
  destruct (close_zones nf txg f (alloc_space c)) as [[[f1 a] o1]|] eqn:EC; [|discriminate]. cbn [obind] in E.
  assert (N : ~ In (VWrite z0 lba0 len0) o1) by (intros Y; destruct (Crash_Proofs.close_zones_trace _ _ _ _ _ _ _ EC _ Y); discriminate).
  destruct r0 as [[z lba]|].
  - injection E as <- <- <-. apply in_app_or in Hin. destruct Hin as [Y|[[= <- <- <-]|[]]]; [contradiction|auto].
  - destruct (find_empty f1) as [z|].
    + destruct (open_zone z (zs z) (ze z) space txg f1) as [[f2 e]|]; [|discriminate]. cbn [obind] in E.
      destruct e as [[[z' lba]|]|]; try discriminate; injection E as <- <- <-.
      * apply in_app_or in Hin. destruct Hin as [Y|[Y|[[= <- <- <-]|[]]]]; [contradiction|discriminate|auto].
      * contradiction.
    + injection E as <- <- <-. contradiction.
Qed.

(** The blocks held after an operation: those held before, which it did not touch, and those it wrote. *)
Lemma op_live c live cl tr op c' r o : Inv v c live cl tr -> FSM_Spec.legal live false op -> step v c op = Some (c', r, o) ->
  forall e l, In e (live_next live op r) -> fst e <= l < fst e + snd e ->
    (In e live /\ forall o', In o' o -> ~ touches v l o')
    \/ ((exists z lba len, In (VWrite z lba len) o /\ lba <= l < lba + len) /\ forall z, ~ In (VErase z) o).
Proof.
  intros I Lg E e l He Hl. pose proof (op_inv v G _ _ _ _ _ _ _ _ I Lg E) as I'.
  destruct op as [space txg|lba len| | |]; cbn [FSM_Spec.legal] in Lg; cbn [step] in E.
  - destruct (write v space txg c) as [[[c1 r1] o1]|] eqn:Ew; [|discriminate]. cbn [obind] in E. injection E as <- <- <-.
    destruct (Crash_Proofs.write_trace v _ _ _ _ _ _ Ew) as (NE & _ & WT). pose proof (write_only _ _ _ _ _ _ Ew) as WO.
    destruct r1 as [lba|]; cbn [live_next] in He, I'.
    + destruct He as [<-|He].
      * right. cbn [fst snd] in Hl. destruct (WT lba eq_refl) as (z & Hz). split; [|exact NE]. exists z, lba, space. auto.
      * left. split; [exact He|]. intros o' Ho. destruct o'; cbn [touches]; try tauto.
        -- intros Ht. destruct (WO _ _ _ Ho) as [[= <-] ->].
           pose proof (l_disj v _ (i_live _ _ _ _ _ I')) as D. inversion D as [|? ? D1 _]; subst.
           rewrite Forall_forall in D1. apply (D1 e He l). cbn [fst snd]. lia.
        -- intros _. eapply NE; eauto.
    + left. split; [exact He|]. intros o' Ho. destruct o'; cbn [touches]; try tauto.
      * destruct (WO _ _ _ Ho) as [[=] _].
      * intros _. eapply NE; eauto.
  - destruct (free v lba len c) as [c1|]; [|discriminate]. cbn [obind] in E. injection E as <- <- <-.
    left. split; [eapply remove_one_in; exact He|]. intros o' [].
  - pose proof (advance_inv v c live cl tr I) as (_ & HE & _). destruct (advance c) as [c1 o1] eqn:Ea. cbn [fst snd] in HE.
    injection E as <- <- <-. left. split; [exact He|]. intros o' Ho. destruct o'; cbn [touches]; try tauto.
    + unfold advance in Ea. destruct (reap (fs c)). injection Ea as <- <-. apply in_map_iff in Ho. destruct Ho as (? & X & _). discriminate.
    + intros Hz'. apply HE in Ho. destruct Ho as (s & t & V').
      pose proof (in_range v _ _ _ _ z I ltac:(congruence)) as Hz0.
      destruct (live_in_view v c live cl tr e l G I He Hl) as (z1 & Hz1 & Hl1 & [(x & V)|(oz & x & V & _)]);
        assert (z = z1) by (eapply zones_disjoint; eauto); congruence.
  - destruct (flush v 0 c) as [[c1 o1]|] eqn:F0; [|discriminate]. cbn [obind] in E.
    destruct (flush v 1 c1) as [[c2 o2]|] eqn:F1; [|discriminate]. cbn [obind] in E. injection E as <- <- <-.
    left. split; [exact He|]. intros o' Ho. apply in_app_iff in Ho. destruct Ho as [Ho|Ho].
    + apply (flush_ops v _ _ _ _ F0) in Ho. destruct Ho as (? & ? & ->). cbn. tauto.
    + apply (flush_ops v _ _ _ _ F1) in Ho. destruct Ho as (? & ? & ->). cbn. tauto.
  - discriminate.
Qed.

(** *** What the disks hear *)

Lemma hear_leaf os : forall d, m_leaf (fold_left (hear v) os d) = m_leaf d.
Proof. induction os as [|o os IH]; intros d; [reflexivity|]. cbn [fold_left]. rewrite IH. now destruct o. Qed.

Lemma hear_untouched os : forall d l, (forall o, In o os -> ~ touches v l o) -> m_has (fold_left (hear v) os d) l = m_has d l.
Proof.
  induction os as [|o os IH]; intros d l N; [reflexivity|]. cbn [fold_left]. rewrite IH by (intros o' Ho; apply N; now right).
  specialize (N o (or_introl eq_refl)). destruct o; cbn [hear m_has touches] in *; auto.
  - destruct (Z.leb_spec lba l); [destruct (Z.ltb_spec l (lba + len))|]; cbn [andb]; [lia|reflexivity|reflexivity].
  - destruct (Z.leb_spec (zs z) l); [destruct (Z.ltb_spec l (ze z))|]; cbn [andb negb]; [lia|now rewrite andb_true_r|now rewrite andb_true_r].
Qed.

Lemma hear_keeps os : forall d l, leaf_present (m_leaf d) = true -> (forall z, ~ In (VErase z) os) -> m_has d l = true ->
  m_has (fold_left (hear v) os d) l = true.
Proof.
  induction os as [|o os IH]; intros d l P N H; [exact H|]. cbn [fold_left]. apply IH.
  - now destruct o.
  - intros z Hz. apply (N z). now right.
  - destruct o; cbn [hear m_has]; auto.
    + now destruct (_ && _).
    + exfalso. apply (N z). now left.
Qed.

Lemma hear_written os : forall d l, leaf_present (m_leaf d) = true -> (forall z, ~ In (VErase z) os) ->
  (exists z lba len, In (VWrite z lba len) os /\ lba <= l < lba + len) -> m_has (fold_left (hear v) os d) l = true.
Proof.
  induction os as [|o os IH]; intros d l P N (z & lba & len & Hin & Hl); [destruct Hin|]. destruct Hin as [->|Hin]; cbn [fold_left].
  - apply hear_keeps; [exact P|intros z' Hz'; apply (N z'); now right|]. cbn [hear m_has].
    destruct (Z.leb_spec lba l); [|lia]. destruct (Z.ltb_spec l (lba + len)); [exact P|lia].
  - apply IH; [now destruct o|intros z' Hz'; apply (N z'); now right|eauto 6].
Qed.

Lemma miss_less os : forall d l, d_good (fold_left (disk_miss v) os d) l = true -> d_good d l = true.
Proof.
  induction os as [|o os IH]; intros d l H; [exact H|]. cbn [fold_left] in H. apply IH in H.
  destruct o; cbn [disk_miss d_good] in H; auto; now apply andb_prop in H.
Qed.

Lemma miss_written os : forall d l, (exists z lba len, In (VWrite z lba len) os /\ lba <= l < lba + len) ->
  d_good (fold_left (disk_miss v) os d) l = false.
Proof.
  induction os as [|o os IH]; intros d l (z & lba & len & Hin & Hl); [destruct Hin|]. destruct Hin as [->|Hin]; cbn [fold_left].
  - destruct (d_good (fold_left _ _ _) l) eqn:E; [|reflexivity]. apply miss_less in E. cbn [disk_miss d_good] in E.
    apply andb_prop in E. destruct E as [_ E]. lia.
  - apply IH. eauto 6.
Qed.

(** *** Copying *)

(** What a repair believes to have copied to a disk is there, as far as it matters. *)
Definition rel (live : list extent) (d : mdisk) (g : disk) : Prop :=
  forall e l, In e live -> fst e <= l < fst e + snd e -> d_good g l = true -> m_has d l = true.

Definition all_present (live : list extent) (ds : list mdisk) : Prop :=
  forall d, In d ds -> leaf_present (m_leaf d) = true -> holds live d.

Lemma source_live live ds e l : all_present live ds -> In e live -> fst e <= l < fst e + snd e -> source_has ds l = true.
Proof.
  intros A He Hl. apply forallb_forall. intros d Hd. destruct (leaf_present (m_leaf d)) eqn:P; [|reflexivity].
  cbn. exact (A d Hd P e l He Hl).
Qed.

Lemma present_not_rebuilding l : leaf_present l = true -> leaf_rebuilding l = false.
Proof. now destruct l. Qed.

Lemma work_spec live ds wk ds' : mirror_work v ds wk = Some ds' -> all_present live ds ->
  forall d', In d' ds' -> exists d, In d ds /\ m_leaf d' = m_leaf d /\ (leaf_rebuilding (m_leaf d) = false -> d' = d) /\
    (leaf_rebuilding (m_leaf d) = true -> forall g, rel live d g -> rel live d' (disk_work v g wk)).
Proof.
  intros E A d' Hd'.
  assert (E' : ds' = map (copy_to v (source_has ds) wk) ds).
  { unfold mirror_work, oassert in E. destruct (w_copy wk); [destruct (existsb _ ds); [|discriminate]|]; now injection E as <-. }
  subst ds'. apply in_map_iff in Hd'. destruct Hd' as (d & <- & Hd). exists d. split; [exact Hd|]. unfold copy_to.
  destruct (leaf_rebuilding (m_leaf d)) eqn:B; cbn [m_leaf]; (split; [reflexivity|]); split; auto; try discriminate.
  intros _ g R e l He Hl Hg. cbn [m_has]. pose proof (source_live live ds e l A He Hl) as S.
  unfold disk_work in Hg. cbn [d_good] in Hg. destruct (w_copy wk) as [[z lbas]|]; [|exact (R e l He Hl Hg)].
  destruct ((zs z <=? l) && (l <? match lbas with Some n => zs z + n | None => ze z end)) eqn:C.
  - exact S.
  - apply (R e l He Hl). rewrite orb_false_r in Hg. exact Hg.
Qed.

Lemma work_present live ds wk ds' : mirror_work v ds wk = Some ds' -> all_present live ds -> all_present live ds'.
Proof.
  intros E A d' Hd' P. destruct (work_spec live ds wk ds' E A d' Hd') as (d & Hd & L & Eq & _).
  rewrite L in P. rewrite (Eq (present_not_rebuilding _ P)). now apply A.
Qed.

Lemma mfinalize_spec c live done fuel : forall ds t ds', mfinalize v fuel (fs c) ds t = Some ds' -> all_present live ds ->
  all_present live ds' /\
  forall d', In d' ds' -> exists d, In d ds /\ m_leaf d' = m_leaf d /\
    (leaf_rebuilding (m_leaf d) = true -> forall g, rel live d g ->
       exists w', finalize v fuel (World c live g t done) = Some w' /\ rel live d' (w_disk w')).
Proof.
  induction fuel as [|n IH]; intros ds t ds' E A; [discriminate|]. cbn [mfinalize] in E.
  destruct (repair_step (fs c) t true) as [[[t' more] wk]|] eqn:Er; [|discriminate]. cbn [obind] in E.
  destruct (mirror_work v ds wk) as [ds1|] eqn:Ew; [|discriminate]. cbn [obind] in E.
  pose proof (work_present live ds wk ds1 Ew A) as A1. pose proof (work_spec live ds wk ds1 Ew A) as S1.
  destruct more.
  - destruct (IH _ _ _ E A1) as [A2 S2]. split; [exact A2|]. intros d' Hd'.
    destruct (S2 d' Hd') as (d1 & Hd1 & L1 & R1). destruct (S1 d1 Hd1) as (d & Hd & L & _ & R).
    exists d. split; [exact Hd|]. split; [congruence|]. intros B g Hg. rewrite L in R1.
    destruct (R1 B _ (R B g Hg)) as (w' & F & Hw). exists w'. split; [|exact Hw].
    cbn [finalize]. cbn [w_c w_task w_live w_disk w_done]. rewrite Er. exact F.
  - injection E as <-. split; [exact A1|]. intros d' Hd'. destruct (S1 d' Hd') as (d & Hd & L & _ & R).
    exists d. split; [exact Hd|]. split; [exact L|]. intros B g Hg. specialize (R B g Hg).
    eexists. cbn [finalize w_c w_task w_live w_disk w_done]. rewrite Er. split; [reflexivity|]. exact R.
Qed.

(** *** The invariant *)

(** The task [t] will see to it that disk [d] has everything. *)
Definition track (c : cluster) (live : list extent) (d : mdisk) (t : tstate) : Prop :=
  match t with
  | Pending x => 0 <= x < TXG_MAX /\
      forall e l z y, In e live -> fst e <= l < fst e + snd e -> 0 <= z < v_zones v -> zs z <= l < ze z ->
        view (fs c) z = ZClosed y -> te y <= x -> m_has d l = true
  | Running t => exists g, WI v (World c live g t false) /\ zrange_ok v (World c live g t false) /\ rel live d g
  | Closing t => exists g, WI v (World c live g t true) /\ zrange_ok v (World c live g t true) /\ rel live d g
  | Over => False
  end.

Record J (w : mworld) : Prop := {
  j_inv : exists cl tr, Inv v (mw_c w) (mw_live w) cl tr;
  j_te : forall z x, view (fs (mw_c w)) z = ZClosed x -> te x < TXG_MAX - 1;
  j_present : all_present (mw_live w) (mw_disks w);
  j_one : forall i j t u, nth_error (mw_tasks w) i = Some t -> nth_error (mw_tasks w) j = Some u ->
          unfinished t = true -> unfinished u = true -> i = j;
  j_track : forall d, In d (mw_disks w) -> leaf_rebuilding (m_leaf d) = true ->
          exists i t, nth_error (mw_tasks w) i = Some t /\ unfinished t = true /\ track (mw_c w) (mw_live w) d t
}.

Lemma track_op c live cl tr op c' r o d t : Inv v c live cl tr -> FSM_Spec.legal live false op -> step v c op = Some (c', r, o) ->
  (forall sp txg, op = CWrite sp txg -> txg < TXG_MAX - 2 /\ match t with Pending x => x <= txg | Running t | Closing t => t_next t <= txg | Over => True end) ->
  track c live d t -> track c' (live_next live op r) (fold_left (hear v) o d) t.
Proof.
  intros I Lg E Hx T. pose proof (op_live _ _ _ _ _ _ _ _ I Lg E) as OL.
  assert (Rel : forall g, rel live d g -> rel (live_next live op r) (fold_left (hear v) o d) (fold_left (disk_miss v) o g)).
  { intros g R e l He Hl Hg. destruct (OL e l He Hl) as [[Hold N]|[Wr _]].
    - rewrite hear_untouched by exact N. apply (R e l Hold Hl). eapply miss_less; exact Hg.
    - rewrite miss_written in Hg by exact Wr. discriminate. }
  assert (Step : forall g t0 done, (forall sp txg, op = CWrite sp txg -> txg < TXG_MAX - 2 /\ t_next t0 <= txg) ->
    WI v (World c live g t0 done) -> zrange_ok v (World c live g t0 done) ->
    WI v (World c' (live_next live op r) (fold_left (disk_miss v) o g) t0 done) /\ zrange_ok v (World c' (live_next live op r) (fold_left (disk_miss v) o g) t0 done)).
  { intros g t0 done Hn W R. eapply (WI_step v G (World c live g t0 done) (EOp op)); eauto.
    - cbn [ev_ok w_live w_task]. split; [exact Lg|]. destruct op; auto. destruct (Hn _ _ eq_refl). lia.
    - cbn [wstep w_c w_live w_disk w_task w_done]. now rewrite E. }
  destruct t as [x|t|t|]; cbn [track] in *.
  - destruct T as [Hr T]. split; [exact Hr|]. intros e l z y He Hl Hz Hlz V Hle.
    pose proof (op_effect v G _ _ _ _ _ _ _ _ I Lg E z Hz) as Ev. rewrite V in Ev.
    destruct Ev as [(y0 & V0 & E1 & _ & U)|(sp & txg & oz & y0 & -> & V0 & E1 & _)].
    + destruct (OL e l He Hl) as [[Hold N]|[(z1 & lba & len & Hin & Hc) _]].
      * rewrite hear_untouched by exact N. apply (T e l z y0 Hold Hl Hz Hlz V0). lia.
      * exfalso. apply (U l _ Hlz Hin). exact Hc.
    + destruct (Hx _ _ eq_refl) as [_ Hx']. lia.
  - destruct T as (g & W & R & Hg). destruct (Step g t false Hx W R) as [W' R']. eauto.
  - destruct T as (g & W & R & Hg). destruct (Step g t true Hx W R) as [W' R']. eauto.
  - exact T.
Qed.

Lemma upd_nth_err {A} (l : list A) i x j :
  nth_error (list_upd l i x) j = if (j =? i)%nat then (match nth_error l i with Some _ => Some x | None => None end) else nth_error l j.
Proof.
  revert i j; induction l as [|h t IH]; intros i j.
  - cbn. destruct (Nat.eqb_spec j i); [subst; now destruct i|reflexivity].
  - destruct i as [|i], j as [|j]; cbn [list_upd nth_error]; try reflexivity. rewrite IH. reflexivity.
Qed.

(** Task [i] becomes [u]. *)
Lemma upd_tasks {A} (ts : list A) i u j t : nth_error (list_upd ts i u) j = Some t -> (j = i /\ t = u) \/ (j <> i /\ nth_error ts j = Some t).
Proof.
  intros H. rewrite upd_nth_err in H. destruct (Nat.eqb_spec j i) as [->|N].
  - left. destruct (nth_error ts i); [|discriminate]. injection H as <-. auto.
  - right. auto.
Qed.

Lemma one_upd ts i t0 u : nth_error ts i = Some t0 -> unfinished t0 = true ->
  (forall i j t u, nth_error ts i = Some t -> nth_error ts j = Some u -> unfinished t = true -> unfinished u = true -> i = j) ->
  forall a b t1 t2, nth_error (list_upd ts i u) a = Some t1 -> nth_error (list_upd ts i u) b = Some t2 -> unfinished t1 = true -> unfinished t2 = true -> a = b.
Proof.
  intros Hi U O a b t1 t2 Ha Hb U1 U2.
  destruct (upd_tasks _ _ _ _ _ Ha) as [[-> ->]|[Na Ha']]; destruct (upd_tasks _ _ _ _ _ Hb) as [[-> ->]|[Nb Hb']]; auto.
  - exfalso. apply Nb. eapply O; eauto.
  - exfalso. apply Na. eapply O; eauto.
  - eapply O; eauto.
Qed.

Lemma upd_here {A} (l : list A) i x y : nth_error l i = Some x -> nth_error (list_upd l i y) i = Some y.
Proof. intros H. rewrite upd_nth_err, Nat.eqb_refl, H. reflexivity. Qed.

(** A disk whose repair is complete has everything. *)
Lemma final_holds c live g t done fuel w' d' : WI v (World c live g t done) -> zrange_ok v (World c live g t done) ->
  finalize v fuel (World c live g t done) = Some w' -> rel live d' (w_disk w') -> holds live d'.
Proof.
  intros W R F Hr e l He Hl. apply (Hr e l He Hl). destruct (wi_inv _ _ W) as (cl & tr & I). cbn [w_c w_live] in I.
  destruct (finalize_good v fuel _ _ (WI_FI v _ W R) F) as (_ & _ & Hg). cbn [w_c] in Hg.
  destruct (live_in_view v _ _ _ _ e l G I He Hl) as (z & Hz & Hlz & [(x & V)|(oz & x & V & Ha)]);
    specialize (Hg z Hz); rewrite V in Hg; apply Hg; lia.
Qed.

Lemma J_step w e w' : J w -> orderly w e -> mstep v w e = Some w' -> J w'.
Proof.
  intros [Hi Ht Hp Ho Hk] Ok E. destruct Hi as (cl & tr & I). destruct e as [op|i|i|i fuel|j|]; cbn [mstep] in E.
  - destruct (step v (mw_c w) op) as [[[c' r] o]|] eqn:Es; [|discriminate]. cbn [obind] in E. injection E as <-.
    destruct Ok as [Lg Hx]. pose proof (op_inv v G _ _ _ _ _ _ _ _ I Lg Es) as I'.
    pose proof (op_live _ _ _ _ _ _ _ _ I Lg Es) as OL.
    split; cbn [mw_c mw_live mw_disks mw_tasks]; auto.
    + eauto.
    + intros z x V. pose proof (in_range v _ _ _ _ z I' ltac:(congruence)) as Hz.
      pose proof (op_effect v G _ _ _ _ _ _ _ _ I Lg Es z Hz) as Ev. rewrite V in Ev.
      destruct Ev as [(x0 & V0 & E1 & _)|(sp & txg & oz & x0 & -> & V0 & E1 & _)]; [rewrite <- E1; eauto|lia].
    + intros d Hd P e l He Hl. apply in_map_iff in Hd. destruct Hd as (d0 & <- & Hd0). rewrite hear_leaf in P.
      destruct (OL e l He Hl) as [[Hold N]|[Wr NE]].
      * rewrite hear_untouched by exact N. exact (Hp d0 Hd0 P e l Hold Hl).
      * now apply hear_written.
    + intros d Hd B. apply in_map_iff in Hd. destruct Hd as (d0 & <- & Hd0). rewrite hear_leaf in B.
      destruct (Hk d0 Hd0 B) as (i & t & Hn & U & T). exists i, t. split; [exact Hn|]. split; [exact U|].
      eapply track_op; eauto. intros sp txg ->. destruct Hx as [Hx1 Hx2]. split; [exact Hx1|].
      apply (Hx2 t). eapply nth_error_In; eauto.
  - destruct (nth_error (mw_tasks w) i) as [[x| | |]|] eqn:Hn; try discriminate. injection E as <-.
    split; cbn [mw_c mw_live mw_disks mw_tasks]; [eauto|exact Ht|exact Hp|exact (one_upd _ _ _ _ Hn eq_refl Ho)|].
    intros d Hd B. destruct (Hk d Hd B) as (i' & t & Hn' & U & T).
    assert (i' = i) by (eapply Ho; eauto). subst i'. rewrite Hn in Hn'. injection Hn' as <-. cbn [track] in T. destruct T as [Hr T].
    exists i, (Running (repair_start (fs (mw_c w)) x)). split; [eapply upd_here; eauto|]. split; [reflexivity|]. cbn [track].
    pose (g := Disk (fun l => match v_zone_of v l with Some z => is_closed (fs (mw_c w)) z && (te_of (fs (mw_c w)) z <=? x) | None => false end) x).
    destruct (start_inv v (mw_c w) (mw_live w) cl tr g I) as [W R].
    + intros z y Hz V. eauto.
    + intros z y Hz V Hle l Hl. cbn [g d_good d_txg] in *. rewrite (proj2 (g_zone_of v G l z) (conj Hz Hl)).
      destruct (closed_view v _ _ _ _ z y I V) as (_ & -> & -> & _). lia.
    + exact Hr.
    + exists g. cbn [g d_txg] in W, R. split; [exact W|]. split; [exact R|].
      intros e l He Hl Hg. cbn [g d_good] in Hg. destruct (v_zone_of v l) as [z|] eqn:Z; [|discriminate].
      apply (g_zone_of v G) in Z. destruct Z as [Hz Hlz]. apply andb_prop in Hg. destruct Hg as [Hc Hle].
      pose proof (i_rep _ _ _ _ _ I) as Rp. rewrite is_closed_view in Hc by (auto; lia).
      destruct (view (fs (mw_c w)) z) as [| | |y] eqn:V; try discriminate.
      destruct (view_ts _ _ _ V) as [_ Et]. apply (T e l z y He Hl Hz Hlz V). lia.
  - destruct (nth_error (mw_tasks w) i) as [[|t| |]|] eqn:Hn; try discriminate.
    destruct (repair_step (fs (mw_c w)) t false) as [[[t' more] wk]|] eqn:Er; [|discriminate]. cbn [obind] in E.
    destruct (mirror_work v (mw_disks w) wk) as [ds'|] eqn:Ew; [|discriminate]. cbn [obind] in E. injection E as <-.
    pose proof (work_spec _ _ _ _ Ew Hp) as WS.
    split; cbn [mw_c mw_live mw_disks mw_tasks]; [eauto|exact Ht|eapply work_present; eauto|exact (one_upd _ _ _ _ Hn eq_refl Ho)|].
    intros d' Hd' B'. destruct (WS d' Hd') as (d & Hd & L & _ & R). rewrite L in B'.
    destruct (Hk d Hd B') as (i' & t0 & Hn' & U & T).
    assert (i' = i) by (eapply Ho; eauto). subst i'. rewrite Hn in Hn'. injection Hn' as <-. cbn [track] in T.
    destruct T as (g & W & Z & Hg).
    destruct (WI_step v G (World (mw_c w) (mw_live w) g t false) EStep
                (World (mw_c w) (mw_live w) (disk_work v g wk) t' (negb more)) W Z Logic.I) as [W' Z'].
    { cbn [wstep w_c w_live w_disk w_task w_done]. now rewrite Er. }
    exists i, (if more then Running t' else Closing t'). split; [eapply upd_here; eauto|].
    destruct more; (split; [reflexivity|]); cbn [track negb] in *; exists (disk_work v g wk); auto.
  - destruct (nth_error (mw_tasks w) i) as [[| |t|]|] eqn:Hn; try discriminate.
    destruct (mfinalize v fuel (fs (mw_c w)) (mw_disks w) t) as [ds'|] eqn:Ef; [|discriminate]. cbn [obind] in E. injection E as <-.
    destruct (mfinalize_spec (mw_c w) (mw_live w) true fuel _ _ _ Ef Hp) as [A S].
    assert (Hl : forall d, In d (map (fun d => set_leaf d (leaf_restore (m_leaf d))) ds') -> exists d', In d' ds' /\ m_has d = m_has d' /\ m_leaf d = leaf_restore (m_leaf d')).
    { intros d Hd. apply in_map_iff in Hd. destruct Hd as (d' & <- & Hd'). exists d'. auto. }
    split; cbn [mw_c mw_live mw_disks mw_tasks]; [eauto|exact Ht| |exact (one_upd _ _ _ _ Hn eq_refl Ho)|].
    + intros d1 Hd1 P. destruct (Hl d1 Hd1) as (d' & Hd' & Eh & El). rewrite El in P.
      assert (H : holds (mw_live w) d'); [|unfold holds in *; rewrite Eh; exact H].
      destruct (leaf_present (m_leaf d')) eqn:P'; [now apply A|].
      assert (B' : leaf_rebuilding (m_leaf d') = true) by (destruct (m_leaf d'); cbn in *; congruence).
      destruct (S d' Hd') as (d & Hd & L & R). rewrite L in B'.
      destruct (Hk d Hd B') as (i' & t0 & Hn' & U & T).
      assert (i' = i) by (eapply Ho; eauto). subst i'. rewrite Hn in Hn'. injection Hn' as <-. cbn [track] in T.
      destruct T as (g & W & Z & Hg). destruct (R B' g Hg) as (w' & F & Hw). eapply final_holds; eauto.
    + intros d1 Hd1 B. destruct (Hl d1 Hd1) as (d' & _ & _ & El). rewrite El in B. now destruct (m_leaf d').
  - destruct (nth_error (mw_disks w) j) as [d0|] eqn:Hd0; [|discriminate]. injection E as <-.
    assert (Hin : forall d, In d (list_upd (mw_disks w) j (set_leaf d0 (leaf_fault (m_leaf d0)))) -> In d (mw_disks w) \/ m_leaf d = leaf_fault (m_leaf d0)).
    { intros d Hd. apply In_nth_error in Hd. destruct Hd as [k Hk']. apply upd_tasks in Hk'. destruct Hk' as [[_ ->]|[_ Hk']]; [now right|left].
      eapply nth_error_In; eauto. }
    split; cbn [mw_c mw_live mw_disks mw_tasks]; eauto.
    + intros d Hd P. destruct (Hin d Hd) as [Hd'|L]; [now apply Hp|]. rewrite L in P. destruct (m_leaf d0); discriminate.
    + intros d Hd B. destruct (Hin d Hd) as [Hd'|L]; [now apply Hk|]. rewrite L in B. destruct (m_leaf d0); discriminate.
  - unfold mirror_attach in E. destruct (existsb _ (map m_leaf (mw_disks w))) eqn:NB; [discriminate|]. cbn [obind] in E. rewrite last_last in E. unfold oassert in E. destruct (existsb _ (mw_disks w)) in E; [|discriminate].
    injection E as <-. cbn [orderly] in Ok.
    assert (Fin : forall i t, nth_error (mw_tasks w ++ [Pending 0]) i = Some t -> unfinished t = true -> i = length (mw_tasks w)).
    { intros i t Hn U. destruct (Nat.lt_ge_cases i (length (mw_tasks w))) as [Hlt|Hge].
      - rewrite nth_error_app1 in Hn by exact Hlt. rewrite (Ok t) in U by (eapply nth_error_In; eauto). discriminate.
      - rewrite nth_error_app2 in Hn by exact Hge. destruct (i - length (mw_tasks w))%nat as [|k] eqn:Ek; [lia|]. cbn in Hn. destruct k; discriminate. }
    split; cbn [mw_c mw_live mw_disks mw_tasks]; eauto.
    + intros d Hd P. apply in_app_iff in Hd. destruct Hd as [Hd|[<-|[]]]; [now apply Hp|discriminate].
    + intros i j t u Hn Hn' U U'. rewrite (Fin i t Hn U), (Fin j u Hn' U'). reflexivity.
    + intros d Hd B. apply in_app_iff in Hd. destruct Hd as [Hd|[<-|[]]].
      * exfalso. assert (existsb leaf_rebuilding (map m_leaf (mw_disks w)) = true); [|congruence]. apply existsb_exists. eauto using in_map.
      * exists (length (mw_tasks w)), (Pending 0). rewrite nth_error_app2, Nat.sub_diag by lia. split; [reflexivity|]. split; [reflexivity|].
        cbn [track]. split; [unfold TXG_MAX; lia|]. intros e l z y He Hl Hz Hlz V Hle. exfalso.
        pose proof (i_zone _ _ _ _ _ I z Hz) as ZI. rewrite V in ZI. cbn [zone_inv] in ZI. lia.
Qed.

Lemma J_start w : opened v w -> J w.
Proof.
  intros [(cl & tr & R) Hends Hp Ht]. pose proof (reach_inv v G _ _ _ _ R) as I. split; eauto.
  - intros z x V. pose proof (in_range v _ _ _ _ z I ltac:(congruence)) as Hz.
    destruct (closed_view v _ _ _ _ z x I V) as (_ & Hc & <- & _). now apply Hends.
  - intros d Hd P. apply Hp; [exact Hd|]. destruct (m_leaf d); try discriminate. reflexivity.
  - intros i j t u Hn Hn' _ _. destruct Ht as [[E _]|(x & E & _)]; rewrite E in *.
    + destruct i; discriminate.
    + destruct i as [|[|i]]; [|discriminate|discriminate]. destruct j as [|[|j]]; [reflexivity|discriminate|discriminate].
  - intros d Hd B. assert (L : m_leaf d = LRebuilding) by (destruct (m_leaf d); try discriminate; reflexivity).
    destruct Ht as [[_ N]|(x & E & Hr & T)]; [exfalso; eapply N; eauto|].
    exists 0%nat, (Pending x). rewrite E. split; [reflexivity|]. split; [reflexivity|]. split; [exact Hr|].
    intros e l z y He Hl Hz Hlz V Hle. destruct (closed_view v _ _ _ _ z y I V) as (_ & Hc & Et & _).
    apply (T d e l z); auto. lia.
Qed.

(** At any time, every disk that may be read has everything its users stored, no matter which disks were faulted, replaced and rebuilt before. *)
Theorem C76_present_disks_complete_partial w es w' :
  opened v w -> history v orderly w es w' -> readable_complete w'.
Proof.
  intros O H. pose proof (J_start w O) as J0. clear O.
  assert (J w') as [_ _ P _ _].
  { induction H; [exact J0|]. apply IHhistory. eapply J_step; eauto. }
  intros d Hd L. apply P; [exact Hd|]. now rewrite L.
Qed.
End C76.

(** ** Where the full claim fails *)

Fixpoint allowed (v : vdev) (ok : mworld -> mevent -> Prop) (w : mworld) (es : list mevent) : Prop :=
  match es with
  | [] => True
  | e :: r => ok w e /\ match mstep v w e with Some w' => allowed v ok w' r | None => True end
  end.

Lemma mrun_history v ok es : forall w w', allowed v ok w es -> mrun v w es = Some w' -> history v ok w es w'.
Proof.
  induction es as [|e es IH]; intros w w' U E; cbn [allowed mrun] in *.
  - injection E as <-. constructor.
  - destruct U as [U1 U2]. destruct (mstep v w e) as [w1|] eqn:Ew; [|discriminate]. cbn [obind] in E. econstructor; eauto.
Qed.

(** A disk is added and its repair has copied zone 0 when the disk is faulted and another one is added.  The first repair goes on: it copies zone 1 to
    the new disk, finds nothing more to do, and declares the new disk fit to be read. *)
Definition one_disk : mdisk := MDisk LPresent (fun _ => true) 4.
Definition swap_ops : list cop := [CWrite 10 5; CWrite 10 5; CWrite 5 5].
Definition swap_events : list mevent :=
  [MAttach; MInit 0; MStep 0; MFault 1; MAttach; MStep 0; MStep 0; MFinal 0 10].

Theorem C76_replaced_disk_refuted : exists v w es w',
  geometry v /\ opened v w /\ mw_tasks w = [] /\ history v unordered w es w' /\ ~ readable_complete w'.
Proof.
  destruct (FSM_Props.run v5 (cluster_create v5) [] false [] swap_ops) as [[[[c live] cl] tr]|] eqn:E; [|vm_compute in E; discriminate].
  assert (A : all_legal v5 (cluster_create v5) [] false swap_ops) by (vm_compute; intuition congruence).
  assert (R : reach v5 c live cl tr) by (eapply run_reach; [apply reach_init|exact A|exact E]).
  set (w0 := MWorld c live [one_disk] []).
  destruct (mrun v5 w0 swap_events) as [w|] eqn:Ew.
  2: { exfalso. subst w0. vm_compute in E. injection E as <- <- <- <-. vm_compute in Ew. discriminate. }
  exists v5, w0, swap_events, w. split; [exact v5_geometry|]. subst w0. split.
  { split; cbn [mw_c mw_live mw_disks mw_tasks].
    - eauto.
    - clear R Ew. vm_compute in E. injection E as <- <- <- <-. intros z Hz. destruct (five z Hz) as [ -> |[ -> |[ -> |[ -> | -> ]]]]; vm_compute; intuition congruence.
    - intros d [<-|[]] _ e l _ _. reflexivity.
    - left. split; [reflexivity|]. intros d [<-|[]]. discriminate. }
  split; [reflexivity|]. clear R.
  vm_compute in E. injection E as <- <- <- <-.
  split; [apply mrun_history; [vm_compute; intuition congruence|exact Ew]|].
  vm_compute in Ew. injection Ew as <-. intros C. unfold readable_complete in C. cbn [mw_disks] in C.
  specialize (C _ (or_intror (or_intror (or_introl eq_refl))) eq_refl (0, 10) 3). cbn in C.
  assert (X : false = true); [|discriminate]. apply C; [auto|lia].
Qed.

(** ** A concrete history that meets the hypotheses: the pool starts with a disk and one that is behind; that one is faulted during its repair, and
    replaced once the repair has returned; all the while the pool is used. *)
Definition stale_disk : mdisk := MDisk LRebuilding (fun l => l <? 10) 6.
Definition calm_events : list mevent :=
  [MInit 0; MOp (CWrite 5 9); MStep 0; MFault 1; MOp (CFree 0 10); MStep 0; MOp (CWrite 3 12); MStep 0; MStep 0; MStep 0; MFinal 0 10;
   MAttach; MInit 1; MStep 1; MOp CAdvance; MStep 1; MOp CSync; MStep 1; MOp (CWrite 7 20); MFinal 1 10; MFault 0].

Definition orderlyb (w : mworld) (e : mevent) : bool :=
  match e with
  | MOp (CWrite sp txg) =>
      (0 <? sp) && (sp <? 2^32) && (0 <=? txg) && (txg <? TXG_MAX - 2)
      && forallb (fun t => match t with Pending x => x <=? txg | Running t | Closing t => t_next t <=? txg | Over => true end) (mw_tasks w)
  | MOp (CFree lba len) => existsb (extent_eqb (lba, len)) (mw_live w)
  | MOp CRemount => false
  | MAttach => forallb (fun t => negb (unfinished t)) (mw_tasks w)
  | _ => true
  end.
Lemma orderlyb_ok w e : orderlyb w e = true -> orderly w e.
Proof.
  destruct e as [[sp txg|lba len| | |]|i|i|i fuel|j|]; cbn [orderlyb orderly FSM_Spec.legal]; intros H; auto; try discriminate.
  - rewrite !andb_true_iff, forallb_forall in H. destruct H as ((((H1 & H2) & H3) & H4) & H5). unfold TXG_MAX in *.
    split; [lia|]. split; [lia|]. intros t Ht. specialize (H5 t Ht). destruct t; auto; lia.
  - apply existsb_exists in H. destruct H as (x & Hi & Ee). apply extent_eqb_eq in Ee. subst x. auto.
  - intros t Ht. rewrite forallb_forall in H. specialize (H t Ht). now apply negb_true_iff in H.
Qed.
Fixpoint allowedb (v : vdev) (w : mworld) (es : list mevent) : bool :=
  match es with
  | [] => true
  | e :: r => orderlyb w e && match mstep v w e with Some w' => allowedb v w' r | None => true end
  end.
Lemma allowedb_ok v es : forall w, allowedb v w es = true -> allowed v orderly w es.
Proof.
  induction es as [|e es IH]; intros w H; cbn [allowed allowedb] in *; [exact Logic.I|].
  apply andb_prop in H. destruct H as [H1 H2]. split; [now apply orderlyb_ok|]. destruct (mstep v w e); auto.
Qed.

Example replace_example : exists w w', opened v5 w /\ history v5 orderly w calm_events w' /\
  map m_leaf (mw_disks w) = [LPresent; LRebuilding] /\
  map m_leaf (mw_disks w') = [LFaulted; LFaulted; LPresent] /\ mw_tasks w' = [Over; Over] /\
  mw_live w' = [(0, 7); (30, 3); (25, 5); (20, 5); (10, 10)].
Proof.
  destruct (FSM_Props.run v5 (cluster_create v5) [] false [] swap_ops) as [[[[c live] cl] tr]|] eqn:E; [|vm_compute in E; discriminate].
  assert (A : all_legal v5 (cluster_create v5) [] false swap_ops) by (vm_compute; intuition congruence).
  assert (R : reach v5 c live cl tr) by (eapply run_reach; [apply reach_init|exact A|exact E]).
  set (w0 := MWorld c live [one_disk; stale_disk] [Pending 0]).
  destruct (mrun v5 w0 calm_events) as [w|] eqn:Ew.
  2: { exfalso. subst w0. vm_compute in E. injection E as <- <- <- <-. vm_compute in Ew. discriminate. }
  exists w0, w. subst w0. split.
  { split; cbn [mw_c mw_live mw_disks mw_tasks].
    - eauto.
    - clear R Ew. vm_compute in E. injection E as <- <- <- <-. intros z Hz. destruct (five z Hz) as [ -> |[ -> |[ -> |[ -> | -> ]]]]; vm_compute; intuition congruence.
    - intros d [<-|[<-|[]]] Hp e l _ _; [reflexivity|discriminate].
    - right. exists 0. split; [reflexivity|]. split; [unfold TXG_MAX; lia|]. clear R Ew.
      vm_compute in E. injection E as <- <- <- <-. intros d e l z _ _ _ _ Hz _ Hc Hle. exfalso. revert Hc Hle.
      destruct (five z Hz) as [ -> |[ -> |[ -> |[ -> | -> ]]]]; vm_compute; intuition congruence. }
  clear R. vm_compute in E. injection E as <- <- <- <-.
  split; [apply mrun_history; [apply allowedb_ok; vm_compute; reflexivity|exact Ew]|].
  vm_compute in Ew. injection Ew as <-. repeat split.
Qed.

Print Assumptions C76_present_disks_complete_partial.
Print Assumptions C76_replaced_disk_refuted.
