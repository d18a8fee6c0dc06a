(** C83: the range of transactions that a closed zone is reported with covers everything written to it. *)
From Verif Require Import Common ZMap FSM_Model FSM_Spec FSM_Proofs FSM_Inv FSM_Props Pool_Model.
Open Scope Z_scope.

(** Histories of a cluster in which writes come in the order of their transactions.  [tl] are the extents that the client holds, each with the transaction
    in which it was written; [cur] is the last transaction. *)
Definition tnext (tl : list (extent * Z)) (op : cop) (r : cres) : list (extent * Z) :=
  match op, r with
  | CWrite space txg, RWrite (WOk lba) => ((lba, space), txg) :: tl
  | CFree lba len, _ => (fix rm l := match l with [] => [] | x :: r => if extent_eqb (lba, len) (fst x) then r else x :: rm r end) tl
  | _, _ => tl
  end.
Definition in_order (cur : Z) (op : cop) : Prop := match op with CWrite _ txg => cur <= txg | _ => True end.
Definition cur_next (cur : Z) (op : cop) : Z := match op with CWrite _ txg => txg | _ => cur end.
Inductive treach (v : vdev) : cluster -> list (extent * Z) -> Z -> bool -> Prop :=
| treach_init : treach v (cluster_create v) [] 0 false
| treach_step c tl cur cl op c' r o :
    treach v c tl cur cl -> legal (map fst tl) cl op -> in_order cur op -> step v c op = Some (c', r, o) ->
    treach v c' (tnext tl op r) (cur_next cur op) (clean_next op).

Lemma tnext_live tl op r : map fst (tnext tl op r) = live_next (map fst tl) op r.
Proof.
  destruct op as [s t|a b| | |]; cbn [tnext live_next]; try reflexivity.
  - destruct r as [[lba|]|]; reflexivity.
  - induction tl as [|x tl IH]; [reflexivity|]. cbn [map remove_one]. destruct (extent_eqb (a, b) (fst x)); [reflexivity|]. cbn [map]. f_equal. exact IH.
Qed.
Lemma treach_reach v c tl cur cl : treach v c tl cur cl -> exists tr, reach v c (map fst tl) cl tr.
Proof.
  induction 1 as [|c tl cur cl op c' r o _ (tr & IH) L _ E]; [exists []; constructor|]. exists (tr ++ o). rewrite tnext_live. eapply reach_step; eassumption.
Qed.
Lemma tnext_in tl op r x : In x (tnext tl op r) -> In x tl \/ (exists space lba, op = CWrite space (snd x) /\ r = RWrite (WOk lba) /\ fst x = (lba, space)).
Proof.
  destruct op as [s t|a b| | |]; cbn [tnext]; auto.
  - destruct r as [[lba|]|]; auto. intros [<-|H]; [right; eexists _, _; cbn; eauto|auto].
  - left. induction tl as [|y tl IH]; [assumption|]. destruct (extent_eqb (a, b) (fst y)); [now right|]. destruct H as [<-|H]; [now left|right; auto].
Qed.

Section Views.
Context (v : vdev) (G : geometry v).

(** What may become of a zone. *)
Inductive evolves (cur : Z) (op : cop) : zview -> zview -> Prop :=
| ev_same w : evolves cur op w w
| ev_open oz x oz' x' : ts x' = ts x -> evolves cur op (ZOpen oz x) (ZOpen oz' x')
| ev_closed x x' : ts x' = ts x -> te x' = te x -> evolves cur op (ZClosed x) (ZClosed x')
| ev_close space txg oz x x' : op = CWrite space txg -> ts x' = ts x -> te x' = txg + 1 -> evolves cur op (ZOpen oz x) (ZClosed x')
| ev_begin space txg oz x : op = CWrite space txg -> ts x = txg -> evolves cur op ZEmpty (ZOpen oz x)
| ev_kill w s e : evolves cur op w (ZDead s e)
| ev_erase s e : evolves cur op (ZDead s e) ZEmpty.

Lemma ev_to_open cur op w oz' x' : evolves cur op w (ZOpen oz' x') ->
  (exists oz x, w = ZOpen oz x /\ ts x' = ts x) \/ (w = ZEmpty /\ exists space, op = CWrite space (ts x')).
Proof. inversion 1; subst; eauto 6. Qed.
Lemma ev_to_closed cur op w x' : evolves cur op w (ZClosed x') ->
  (exists x, w = ZClosed x /\ ts x' = ts x /\ te x' = te x) \/ (exists oz x space txg, op = CWrite space txg /\ w = ZOpen oz x /\ ts x' = ts x /\ te x' = txg + 1).
Proof. inversion 1; subst; eauto 10. Qed.

Lemma fresh_views c live cl tr space txg c' r o cur : Inv v c live cl tr -> 0 < space < 2^32 -> 0 <= txg < TXG_MAX ->
  (forall z oz x, view (fs c) z <> ZOpen oz x) -> write_fresh v space txg c = Some (c', r, o) ->
  (forall z, evolves cur (CWrite space txg) (view (fs c) z) (view (fs c') z)) /\
  (forall lba, r = WOk lba -> exists z oz x, inz v z (lba, space) = true /\ view (fs c') z = ZOpen oz x).
Proof.
  intros I Hs Ht Hno E. pose proof (i_rep _ _ _ _ _ I) as R. pose proof (i_tot _ _ _ _ _ I) as T. unfold write_fresh in E.
  pose proof (find_empty_spec (fs c) R) as FE. rewrite T in FE. destruct (find_empty (fs c)) as [z|].
  2: { injection E as <- <- <-. split; [intros; constructor|discriminate]. }
  destruct FE as (Hz & Ez). pose proof (g_size v G z Hz) as Hsz. unfold U32MAX in Hsz.
  destruct (Z.ltb_spec (snd (v_lim v z) - fst (v_lim v z)) space) as [Hsp|Hsp].
  - destruct (open_zone_nospace (fs c) z (fst (v_lim v z)) (snd (v_lim v z)) space txg R ltac:(lia) Ez ltac:(lia) Hsp) as (f' & E' & C).
    rewrite E' in E. cbn [obind] in E. injection E as <- <- <-. split; [|discriminate]. intros j. cbn [fs].
    destruct (Z.eq_dec j z) as [->|N]; [rewrite (c_at _ _ _ _ C), Ez; constructor|rewrite (c_off _ _ _ _ C) by auto; constructor].
  - destruct (open_zone_spec (fs c) z (fst (v_lim v z)) (snd (v_lim v z)) space txg R ltac:(lia) Ez ltac:(lia) ltac:(lia) ltac:(lia)) as (f' & E' & C).
    rewrite E' in E. cbn [obind] in E. destruct (Z.gtb_spec space 0); [|lia]. injection E as <- <- <-. cbn [fs]. split.
    + intros j. destruct (Z.eq_dec j z) as [->|N]; [rewrite (c_at _ _ _ _ C), Ez; eapply ev_begin; reflexivity|rewrite (c_off _ _ _ _ C) by auto; constructor].
    + intros lba [= <-]. exists z. eexists _, _. split; [|apply (c_at _ _ _ _ C)]. apply inz_spec; [exact G|]. unfold zstart, zend. cbn [fst]. lia.
Qed.

Lemma evolves_trans_close c f1 z oz x x' space txg cur w :
  one_open (fs c) -> view (fs c) z = ZOpen oz x -> changes (fs c) f1 z (ZClosed x') -> ts x' = ts x -> te x' = txg + 1 ->
  forall j, evolves cur (CWrite space txg) (view f1 j) w -> evolves cur (CWrite space txg) (view (fs c) j) w.
Proof.
  intros O V C H1 H2 j Ev. destruct (Z.eq_dec j z) as [->|N]; [|rewrite (c_off _ _ _ _ C) in Ev by auto; exact Ev].
  rewrite (c_at _ _ _ _ C) in Ev. rewrite V. inversion Ev; subst.
  - eapply ev_close; eauto.
  - eapply ev_close; eauto; congruence.
  - constructor.
Qed.

Lemma write_views c live cl tr space txg c' r o cur : Inv v c live cl tr -> 0 < space < 2^32 -> 0 <= txg < TXG_MAX ->
  write v space txg c = Some (c', r, o) ->
  (forall z, evolves cur (CWrite space txg) (view (fs c) z) (view (fs c') z)) /\
  (forall lba, r = WOk lba -> exists z oz x, inz v z (lba, space) = true /\ view (fs c') z = ZOpen oz x).
Proof.
  intros I Hs Ht E. pose proof (i_rep _ _ _ _ _ I) as R. pose proof (i_tot _ _ _ _ _ I) as T.
  destruct (open_case (fs c) R (i_one _ _ _ _ _ I)) as [[On Hno]|(z & oz & x & V & Oz)].
  - apply (fresh_views c live cl tr space txg c' r o cur I Hs Ht Hno). unfold write in E. rewrite try_allocate_none in E by auto. cbn [obind close_zones] in E.
    unfold write_fresh. destruct (find_empty (fs c)) as [z|].
    + destruct (open_zone _ _ _ _ _ _) as [[f e]|]; [|discriminate]. cbn [obind] in *. destruct e as [[[z' lba]|]|]; [|discriminate|]; now injection E as <- <- <-.
    + rewrite cluster_eta in E. exact E.
  - assert (Hz : 0 <= z < v_zones v).
    { rewrite <- T. pose proof (view_range (fs c) z ltac:(congruence)). pose proof (r_len _ R). lia. }
    pose proof (i_zone _ _ _ _ _ I z Hz) as ZI. rewrite V in ZI. cbn [zone_inv] in ZI. destruct ZI as (A1 & A2 & A3 & A4 & A5 & A6 & A7).
    pose proof (g_size v G z Hz) as Hsz. unfold zstart, zend in *. unfold U32MAX in Hsz. unfold write in E.
    destruct (Z.ltb_spec (total x - oalloc oz) space) as [Hf|Hf].
    + rewrite (try_allocate_full (fs c) space z oz x R (i_one _ _ _ _ _ I) V ltac:(lia) ltac:(lia) ltac:(lia)) in E. cbn [obind close_zones] in E.
      destruct (finish_spec (fs c) z txg oz x R V ltac:(lia) ltac:(lia)) as (f1 & E1 & C1). rewrite E1 in E. cbn [obind] in E.
      assert (I1 : Inv v (mkcl f1 (alloc_space c + (total x - oalloc oz)) (sm c)) live false (tr ++ [VFinish z])).
      { eapply inv_change with (z := z); eauto.
        - intros (? & ? & X). discriminate X.
        - cbn [zone_inv freed total te ts]. unfold zstart, zend. repeat split; lia.
        - apply I.
        - rewrite V. cbn [alloc_v total]. lia.
        - intros d Hd. cbn [dev_run dev_step]. rewrite Hd, V. cbn [dz_v obind]. eexists. split; [reflexivity|]. reflexivity. }
      set (c1 := mkcl f1 (alloc_space c + (total x - oalloc oz)) (sm c)) in *.
      assert (Hno1 : forall j oz' x', view (fs c1) j <> ZOpen oz' x').
      { intros j oz' x'. cbn [fs c1]. destruct (Z.eq_dec j z) as [->|N].
        - rewrite (c_at _ _ _ _ C1). discriminate.
        - rewrite (c_off _ _ _ _ C1) by auto. intros V'. apply N. eapply (i_one _ _ _ _ _ I); eauto. }
      assert (E2 : exists o2, write_fresh v space txg c1 = Some (c', r, o2)).
      { unfold write_fresh, c1. cbn [fs alloc_space sm]. destruct (find_empty f1) as [z1|].
        - destruct (open_zone _ _ _ _ _ _) as [[f e]|]; [|discriminate]. cbn [obind] in *. destruct e as [[[z' lba]|]|]; [|discriminate|]; injection E as <- <- <-; eauto.
        - injection E as <- <- <-. eauto. }
      destruct E2 as (o2 & E2). destruct (fresh_views c1 live false _ space txg c' r o2 cur I1 Hs Ht Hno1 E2) as (H1 & H2). split; [|exact H2].
      intros j. eapply (evolves_trans_close c f1 z oz x _ space txg cur _ (i_one _ _ _ _ _ I) V C1); [reflexivity|reflexivity|]. apply H1.
    + destruct (try_allocate_ok (fs c) space z oz x R (i_one _ _ _ _ _ I) V ltac:(lia) ltac:(lia)) as (f1 & E1 & C1).
      rewrite E1 in E. cbn [obind close_zones app] in E. injection E as <- <- <-. cbn [fs]. split.
      * intros j. destruct (Z.eq_dec j z) as [->|N]; [rewrite (c_at _ _ _ _ C1), V; now constructor|rewrite (c_off _ _ _ _ C1) by auto; constructor].
      * intros lba [= <-]. exists z. eexists _, _. split; [|apply (c_at _ _ _ _ C1)]. apply inz_spec; [exact G|]. unfold zstart, zend. cbn [fst]. lia.
Qed.

Lemma free_views c live cl tr lba len c' cur : Inv v c live cl tr -> In (lba, len) live -> free v lba len c = Some c' ->
  forall z, evolves cur (CFree lba len) (view (fs c) z) (view (fs c') z).
Proof.
  intros I Hin E. pose proof (i_live _ _ _ _ _ I) as L. pose proof (i_rep _ _ _ _ _ I) as R.
  destruct (l_in v live L (lba, len) Hin) as (Hlen & z & Hz & Hinz & Hs & He). cbn [fst snd] in *.
  pose proof (i_zone _ _ _ _ _ I z Hz) as ZI. pose proof (lsum_pos v z live (lba, len) (live_pos v live L) Hin Hinz) as Hlp. cbn [snd] in Hlp.
  pose proof (g_size v G z Hz) as Hsz. unfold zstart, zend in *. unfold U32MAX in Hsz.
  unfold free in E. unfold inz in Hinz. cbn [fst] in Hinz. destruct (v_zone_of v lba) as [z'|]; [|discriminate]. apply Z.eqb_eq in Hinz. subst z'. cbn [obind] in E.
  destruct (free_spec (fs c) z len R) as (f1 & E1 & C1).
  { destruct (view (fs c) z); cbn [zone_inv] in ZI; unfold zstart, zend in ZI; try lia. }
  { destruct (view (fs c) z); cbn [zone_inv] in ZI; unfold zstart, zend in ZI; try lia. }
  rewrite E1 in E. cbn [obind] in E.
  assert (EV1 : forall j, evolves cur (CFree lba len) (view (fs c) j) (view f1 j)).
  { intros j. destruct (Z.eq_dec j z) as [->|N]; [|rewrite (c_off _ _ _ _ C1) by auto; constructor]. rewrite (c_at _ _ _ _ C1).
    destruct (view (fs c) z); cbn [free_v]; constructor; reflexivity. }
  destruct (if is_closed f1 z then in_use f1 z else Some 1) as [u|] eqn:Eu; [|discriminate E]. cbn [obind] in E.
  destruct (u =? 0) eqn:U0; [|injection E as <-; exact EV1].
  destruct (is_closed f1 z) eqn:Cz; [|injection Eu as <-; discriminate U0].
  rewrite is_closed_view in Cz by (first [exact (c_rep _ _ _ _ C1)|lia]). destruct (view f1 z) as [| | |x] eqn:V1; try discriminate Cz.
  destruct (kill_spec f1 z x (c_rep _ _ _ _ C1) V1) as (f2 & Ek & C2). rewrite Ek in E. cbn [obind] in E. injection E as <-. cbn [fs].
  intros j. destruct (Z.eq_dec j z) as [->|N]; [rewrite (c_at _ _ _ _ C2); constructor|rewrite (c_off _ _ _ _ C2) by auto; apply EV1].
Qed.

Lemma step_views c live cl tr op c' r o cur : Inv v c live cl tr -> legal live cl op -> step v c op = Some (c', r, o) ->
  (forall z, evolves cur op (view (fs c) z) (view (fs c') z)) /\
  (forall space txg lba, op = CWrite space txg -> r = RWrite (WOk lba) -> exists z oz x, inz v z (lba, space) = true /\ view (fs c') z = ZOpen oz x).
Proof.
  intros I L E. destruct op as [space txg|lba len| | |]; cbn [legal] in L.
  - cbn [step] in E. destruct (write v space txg c) as [[[c1 r1] o1]|] eqn:Ew; [|discriminate]. cbn [obind] in E. injection E as <- <- <-.
    destruct (write_views c live cl tr space txg c1 r1 o1 cur I ltac:(apply L) ltac:(apply L) Ew) as (H1 & H2). split; [exact H1|].
    intros s t lba [= <- <-] [= ->]. now apply H2.
  - split; [|discriminate]. cbn [step] in E. destruct (free v lba len c) as [c1|] eqn:Ef; [|discriminate]. cbn [obind] in E. injection E as <- <- <-.
    eapply free_views; eauto.
  - split; [|discriminate]. pose proof (advance_inv v c live cl tr I) as (_ & _ & V). cbn [step] in E. destruct (advance c) as [c1 o1]. injection E as <- <- <-.
    cbn [fst] in V. intros z. rewrite V. destruct (view (fs c) z); constructor; reflexivity.
  - split; [|discriminate]. destruct (sync_inv v G c live cl tr I) as (c1 & o1 & E1 & _ & V). rewrite E in E1. injection E1 as -> -> ->.
    intros z. rewrite V. destruct (view (fs c) z); cbn [pad_v]; constructor; reflexivity.
  - split; [|discriminate]. subst cl. destruct (reopen_spec v G c live tr I) as (c1 & o1 & E1 & _ & V & _). cbn [step] in E. rewrite E1 in E. cbn [obind] in E. injection E as <- <- <-.
    intros z. rewrite V. constructor.
Qed.

(** The transactions of the extents in a zone. *)
Definition covered (tl : list (extent * Z)) (cur z : Z) (w : zview) : Prop :=
  match w with
  | ZOpen _ x => ts x <= cur /\ forall e t, In (e, t) tl -> inz v z e = true -> ts x <= t
  | ZClosed x => (0 <= ts x /\ ts x < te x /\ te x <= cur + 1) /\ forall e t, In (e, t) tl -> inz v z e = true -> ts x <= t < te x
  | _ => True
  end.

Lemma covered_reach c tl cur cl : treach v c tl cur cl -> 0 <= cur /\ (forall e t, In (e, t) tl -> 0 <= t <= cur) /\
  (forall z oz x, view (fs c) z = ZOpen oz x -> 0 <= ts x) /\ forall z, covered tl cur z (view (fs c) z).
Proof.
  intros T. induction T as [|c tl cur cl op c' r o T IH L Ord E].
  - split; [lia|]. split; [contradiction|]. 
    assert (A : forall z, match view (fs (cluster_create v)) z with ZOpen _ _ | ZClosed _ => False | _ => True end).
    { intros z. cbn [cluster_create fs]. now rewrite view_new. }
    split; [intros z oz x Vz; specialize (A z); rewrite Vz in A; contradiction|]. intros z. specialize (A z).
    destruct (view (fs (cluster_create v)) z); cbn [covered]; tauto.
  - destruct IH as (Hc & Ht & Ho & H). destruct (treach_reach v c tl cur cl T) as (tr & R). pose proof (reach_inv v G _ _ _ _ R) as I.
    destruct (step_views c _ _ _ op c' r o cur I L E) as (EV & NW).
    pose proof (step_inv v G c _ _ _ op I L) as (c1 & r1 & o1 & E1 & I'). rewrite E in E1. injection E1 as <- <- <-. rewrite <- tnext_live in I'.
    assert (Hcur : cur <= cur_next cur op). { destruct op; cbn [cur_next in_order legal] in *; lia. }
    assert (Ht' : forall e t, In (e, t) (tnext tl op r) -> 0 <= t <= cur_next cur op).
    { intros e t Hin. apply tnext_in in Hin. destruct Hin as [Hin|(space & lba & -> & -> & _)]; [specialize (Ht e t Hin); lia|]. cbn [snd cur_next legal in_order] in *. lia. }
    (* an extent now in zone z was there before, or is the new one and z is open *)
    assert (Hin : forall z e t, In (e, t) (tnext tl op r) -> inz v z e = true ->
                  In (e, t) tl \/ (t = cur_next cur op /\ cur <= t /\ exists oz x, view (fs c') z = ZOpen oz x)).
    { intros z e t Hi Hz. apply tnext_in in Hi. destruct Hi as [Hi|(space & lba & -> & -> & Ee)]; [now left|]. cbn [fst snd] in *. subst e. right.
      split; [reflexivity|]. split; [exact Ord|]. destruct (NW _ _ _ eq_refl eq_refl) as (z' & oz & x & A & B). exists oz, x.
      replace z with z'; [exact B|]. eapply inz_unique; eauto. }
    split; [lia|]. split; [exact Ht'|].
    assert (Hnone : forall z, view (fs c) z = ZEmpty -> 0 <= z < v_zones v -> forall e t, In (e, t) tl -> inz v z e = true -> False).
    { intros z Vz Hz e t Hi Hzz. pose proof (i_zone _ _ _ _ _ I z Hz) as ZI. rewrite Vz in ZI. cbn [zone_inv] in ZI.
      pose proof (lsum_pos v z (map fst tl) e (live_pos v _ (i_live _ _ _ _ _ I)) (in_map fst _ _ Hi) Hzz).
      destruct (l_in v _ (i_live _ _ _ _ _ I) e (in_map fst _ _ Hi)) as (P & _). lia. }
    split.
    + intros z oz x Vz. specialize (EV z). rewrite Vz in EV. apply ev_to_open in EV. destruct EV as [(oz0 & x0 & V0 & ->)|(_ & space & ->)].
      * eapply Ho. exact V0.
      * cbn [legal] in L. lia.
    + intros z. specialize (EV z). specialize (H z). pose proof (Hin z) as Hinz.
      destruct (view (fs c') z) as [| |oz' x'|x'] eqn:V'; cbn [covered]; try exact Logic.I.
      * assert (Hr : 0 <= z < v_zones v).
        { rewrite <- (i_tot _ _ _ _ _ I'). pose proof (view_range (fs c') z ltac:(congruence)). pose proof (r_len _ (i_rep _ _ _ _ _ I')). lia. }
        apply ev_to_open in EV. destruct EV as [(oz0 & x0 & V0 & ->)|(V0 & space & ->)].
        -- rewrite V0 in H. cbn [covered] in H. destruct H as (H1 & H2). split; [lia|]. intros e t Hi Hz.
           destruct (Hinz e t Hi Hz) as [Hi'|(-> & X & _)]; [eauto|lia].
        -- cbn [cur_next]. split; [lia|]. intros e t Hi Hz. destruct (Hinz e t Hi Hz) as [Hi'|(-> & X & _)]; [|cbn [cur_next]; lia].
           exfalso. eapply Hnone; eauto.
      * assert (Hold : forall e t, In (e, t) (tnext tl op r) -> inz v z e = true -> In (e, t) tl).
        { intros e t Hi Hz. destruct (Hinz e t Hi Hz) as [Hi'|(_ & _ & oz & x & X)]; [exact Hi'|discriminate X]. }
        apply ev_to_closed in EV. destruct EV as [(x0 & V0 & A & B)|(oz0 & x0 & space & txg & -> & V0 & A & B)].
        -- rewrite V0 in H. cbn [covered] in H. destruct H as (H1 & H2). rewrite A, B. split; [lia|]. eauto.
        -- rewrite V0 in H. cbn [covered] in H. destruct H as (H1 & H2). rewrite A, B. cbn [cur_next in_order] in *.
           pose proof (Ho z oz0 x0 V0). split; [lia|]. intros e t Hi Hz. specialize (H2 e t (Hold e t Hi Hz) Hz).
           specialize (Ht e t (Hold e t Hi Hz)). lia.
Qed.
End Views.

(** C83.  For any history in which writes come in the order of their transactions: whatever zone is found when closed zones are listed, from whatever zone the
    search starts, each extent in it that is still held was written in one of the transactions that the zone is reported with.  No transaction is reported
    that has not begun. *)
Theorem C83_zone_transactions v c tl cur cl start x : geometry v -> treach v c tl cur cl -> 0 <= start -> find_closed v c start = Some x ->
  (0 <= cz_ts x /\ cz_ts x < cz_te x /\ cz_te x <= cur + 1) /\
  forall lba n t, In ((lba, n), t) tl -> fst (v_lim v (cz_id x)) <= lba < snd (v_lim v (cz_id x)) -> cz_ts x <= t < cz_te x.
Proof.
  intros G T Hst E. destruct (treach_reach v c tl cur cl T) as (tr & R). pose proof (reach_inv v G _ _ _ _ R) as I. pose proof (i_rep _ _ _ _ _ I) as Rp.
  unfold find_closed in E. destruct (find (is_closed (fs c)) (zrange start (zlen (zones (fs c))))) as [z|] eqn:Ef; [|discriminate]. cbn [obind] in E.
  apply find_some in Ef. destruct Ef as (Hin & Hc). apply in_zrange in Hin.
  destruct (lget (zones (fs c)) z) as [y|] eqn:Ey; [|discriminate]. cbn [obind] in E. injection E as <-. cbn [cz_ts cz_te cz_id].
  rewrite is_closed_view in Hc by (auto; lia). destruct (view (fs c) z) as [| | |y'] eqn:Vz; try discriminate Hc.
  assert (y' = y) by (pose proof (view_closed_inv _ _ _ Vz) as (X & _); congruence). subst y'.
  destruct (covered_reach v G c tl cur cl T) as (_ & _ & _ & H). specialize (H z). rewrite Vz in H. cbn [covered] in H. destruct H as (H1 & H2).
  split; [exact H1|]. intros lba n t Hi Hz. apply (H2 (lba, n) t Hi). apply inz_spec; [exact G|]. unfold zstart, zend. cbn [fst].
  split; [|exact Hz]. rewrite <- (i_tot _ _ _ _ _ I). pose proof (view_range (fs c) z ltac:(congruence)). pose proof (r_len _ Rp). lia.
Qed.

Fixpoint trun (v : vdev) (c : cluster) (tl : list (extent * Z)) (ops : list cop) : option (cluster * list (extent * Z)) :=
  match ops with
  | [] => Some (c, tl)
  | op :: r => match step v c op with Some (c', res, _) => trun v c' (tnext tl op res) r | None => None end
  end.
Fixpoint tlegal (v : vdev) (c : cluster) (tl : list (extent * Z)) (cur : Z) (cl : bool) (ops : list cop) : Prop :=
  match ops with
  | [] => True
  | op :: r => legal (map fst tl) cl op /\ in_order cur op /\
      match step v c op with Some (c', res, _) => tlegal v c' (tnext tl op res) (cur_next cur op) (clean_next op) r | None => True end
  end.
Lemma trun_treach v : forall ops c tl cur cl c' tl', treach v c tl cur cl -> tlegal v c tl cur cl ops -> trun v c tl ops = Some (c', tl') ->
  exists cur' cl', treach v c' tl' cur' cl'.
Proof.
  induction ops as [|op ops IH]; intros c tl cur cl c' tl' T L E; cbn [trun tlegal] in *; [injection E as <- <-; eauto|].
  destruct L as (L1 & L2 & L3). destruct (step v c op) as [[[c1 res] o]|] eqn:Es; [|discriminate]. eapply IH; [|exact L3|exact E]. econstructor; eauto.
Qed.

(** Two transactions fill a zone; part of it is freed, the device is remounted, and a write of a third transaction goes elsewhere. *)
Definition fill : list cop := [CWrite 4 3; CWrite 4 5; CFree 0 4; CSync; CRemount; CWrite 8 6].
Example C83_example : exists c tl cur cl, geometry v5 /\ treach v5 c tl cur cl /\ find_closed v5 c 0 = Some (CZ 0 0 6 10 3 7) /\ In ((4, 4), 5) tl.
Proof.
  destruct (trun v5 (cluster_create v5) [] fill) as [[c tl]|] eqn:E; [|vm_compute in E; discriminate].
  destruct (trun_treach v5 fill _ [] 0 false c tl (treach_init v5)) as (cur & cl & T); [vm_compute; intuition congruence|exact E|].
  exists c, tl, cur, cl. split; [exact v5_geometry|]. split; [exact T|]. vm_compute in E. injection E as <- <-. split; [reflexivity|right; now left].
Qed.

(** The order is needed: if a zone is opened by a write of transaction 5, and one of transaction 3 comes later, then the zone is reported without transaction 3. *)
Theorem C83_out_of_order_refuted : exists c live cl tr x, reach v5 c live cl tr /\
  (exists c0 o1 c1 o2 c2 r o3, step v5 (cluster_create v5) (CWrite 4 5) = Some (c0, RWrite (WOk 0), o1) /\ step v5 c0 (CWrite 4 3) = Some (c1, RWrite (WOk 4), o2) /\
     step v5 c1 (CWrite 4 6) = Some (c2, r, o3) /\ c2 = c) /\
  In (4, 4) live /\ find_closed v5 c 0 = Some x /\ fst (v_lim v5 (cz_id x)) <= 4 < snd (v_lim v5 (cz_id x)) /\ ~ (cz_ts x <= 3 < cz_te x).
Proof.
  destruct (run v5 (cluster_create v5) [] false [] [CWrite 4 5; CWrite 4 3; CWrite 4 6]) as [[[[c live] cl] tr]|] eqn:E; [|vm_compute in E; discriminate].
  assert (R : reach v5 c live cl tr) by (eapply run_reach; [apply reach_init| |exact E]; vm_compute; intuition congruence).
  exists c, live, cl, tr. vm_compute in E. injection E as <- <- <- <-. eexists. split; [exact R|]. split.
  - eexists _, _, _, _, _, _, _. split; [vm_compute; reflexivity|]. split; [vm_compute; reflexivity|]. split; [vm_compute; reflexivity|reflexivity].
  - split; [right; now left|]. split; [vm_compute; reflexivity|]. cbn. split; [lia|]. intros [H _]. now apply H.
Qed.

Print Assumptions C83_zone_transactions.
Print Assumptions C83_example.
Print Assumptions C83_out_of_order_refuted.
