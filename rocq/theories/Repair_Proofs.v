(** Invariants of the repair of a mirror's disk. *)
From Verif Require Import Common ZMap FSM_Model FSM_Spec FSM_Proofs FSM_Inv Repair_Model.

(** ** The list of zones *)

Lemma insert_by_in le x l z : In z (insert_by le x l) <-> z = x \/ In z l.
Proof.
  induction l as [|y r IH]; cbn; [intuition|]. destruct (le x y); cbn; [intuition|].
  rewrite IH. intuition.
Qed.

Lemma sort_by_in le l z : In z (sort_by le l) <-> In z l.
Proof.
  unfold sort_by. induction l as [|x r IH]; cbn [fold_right In]; [reflexivity|].
  rewrite insert_by_in, IH. intuition.
Qed.

Lemma fold_max_ge l : forall a x, (x = a \/ In x l) -> x <= fold_left Z.max l a.
Proof.
  induction l as [|y l IH]; intros a x H; cbn [fold_left].
  - destruct H as [->|[]]. lia.
  - destruct H as [->|[->|H]].
    + pose proof (IH (Z.max a y) _ (or_introl eq_refl)). lia.
    + pose proof (IH (Z.max a x) _ (or_introl eq_refl)). lia.
    + apply IH. now right.
Qed.

Lemma fold_max_in l : forall a, fold_left Z.max l a = a \/ In (fold_left Z.max l a) l.
Proof.
  induction l as [|y l IH]; intros a; cbn [fold_left]; [now left|].
  destruct (IH (Z.max a y)) as [E|E]; [|right; now right].
  destruct (Z.max_spec a y) as [[_ M]|[_ M]]; rewrite M in *; [right; left|left]; congruence.
Qed.

Lemma omax_spec l : match omax l with
  | Some m => In m l /\ forall x, In x l -> x <= m
  | None => l = [] end.
Proof.
  destruct l as [|x r]; cbn [omax]; [reflexivity|]. split.
  - destruct (fold_max_in r x) as [E|E]; [left; congruence|now right].
  - intros y Hy. apply fold_max_ge. destruct Hy; auto.
Qed.

Definition key_le (f : fsm) (a b : Z) : Prop := key_leb f a b = true.

Lemma key_total f a b : key_leb f a b = false -> key_leb f b a = true.
Proof.
  unfold key_leb. rewrite (Z.eqb_sym (ts_of f b)), (Z.eqb_sym (te_of f b)).
  destruct (Z.eqb_spec (ts_of f a) (ts_of f b)); [destruct (Z.eqb_spec (te_of f a) (te_of f b))|]; lia.
Qed.

Lemma key_ts f a b : key_leb f a b = true -> ts_of f a <= ts_of f b.
Proof. unfold key_leb. destruct (Z.eqb_spec (ts_of f a) (ts_of f b)); lia. Qed.

Definition ts_sorted (f : fsm) : list Z -> Prop := Sorted.StronglySorted (fun a b => ts_of f a <= ts_of f b).

Lemma insert_sorted f x l : ts_sorted f l -> ts_sorted f (insert_by (key_leb f) x l).
Proof.
  induction l as [|y r IH]; intros H; cbn [insert_by].
  - constructor; [constructor|constructor].
  - inversion H as [|? ? Hs Hf]; subst. destruct (key_leb f x y) eqn:E.
    + apply key_ts in E. constructor; [assumption|]. constructor; [assumption|].
      rewrite Forall_forall in *. intros z Hz. specialize (Hf z Hz). lia.
    + apply key_total, key_ts in E. constructor; [now apply IH|].
      rewrite Forall_forall in *. intros z Hz. apply insert_by_in in Hz. destruct Hz as [->|Hz]; auto.
Qed.

Lemma sort_sorted f l : ts_sorted f (sort_by (key_leb f) l).
Proof.
  unfold sort_by. induction l as [|x r IH]; cbn [fold_right]; [constructor|]. now apply insert_sorted.
Qed.

Section Inv.
Context (v : vdev) (G : geometry v).

Notation zs z := (fst (v_lim v z)).
Notation ze z := (snd (v_lim v z)).

Lemma view_ts f z x : view f z = ZClosed x -> ts_of f z = ts x /\ te_of f z = te x.
Proof.
  intros V. apply view_closed_inv in V. destruct V as (E & _). unfold ts_of, te_of. rewrite E. auto.
Qed.
Lemma view_ts_open f z oz x : view f z = ZOpen oz x -> ts_of f z = ts x /\ te_of f z = te x.
Proof.
  intros V. apply view_open_inv in V. destruct V as (E & _). unfold ts_of, te_of. rewrite E. auto.
Qed.

Lemma contains_spec f s z : rep f ->
  In z (contains f s) <-> s < TXG_MAX /\ match view f z with
                          | ZClosed x => s < te x
                          | ZOpen _ _ => True
                          | _ => False
                          end.
Proof.
  intros R. unfold contains. rewrite filter_In, in_zrange, !andb_true_iff, negb_true_iff, orb_true_iff, Z.ltb_lt, Z.gtb_lt.
  unfold view, te_of. destruct (lget (zones f) z) as [x|] eqn:E.
  - pose proof (lget_range _ _ _ E) as Hz.
    destruct (zm_mem z (empties f)) eqn:M.
    + split; [intros (_ & (H & _) & _); discriminate|]. destruct (te x =? 0); tauto.
    + unfold zm_mem. destruct (zm_get z (opens f)) as [oz|]; intuition (try discriminate).
  - split; [|tauto]. intros (H1 & _).
    destruct (lget_some (zones f) z) as [y Ey]; [lia|congruence].
Qed.

(** ** What an operation of the cluster does to the zones *)

Definition touches (l : Z) (o : vop) : Prop :=
  match o with
  | VWrite _ lba len => lba <= l < lba + len
  | VErase z => zs z <= l < ze z
  | _ => False
  end.

Definition untouched (z : Z) (os : list vop) : Prop :=
  forall l o, zs z <= l < ze z -> In o os -> ~ touches l o.

Lemma miss_good os : forall d l, d_good d l = true -> (forall o, In o os -> ~ touches l o) ->
  d_good (fold_left (disk_miss v) os d) l = true.
Proof.
  induction os as [|o os IH]; intros d l H N; [exact H|]. cbn [fold_left]. apply IH; [|intros o' Ho; apply N; now right].
  specialize (N o (or_introl eq_refl)). destruct o; cbn [disk_miss d_good touches] in *; rewrite ?H; auto; cbn [andb].
  - apply negb_true_iff, andb_false_iff. rewrite Z.leb_gt, Z.ltb_ge. lia.
  - apply negb_true_iff, andb_false_iff. rewrite Z.leb_gt, Z.ltb_ge. lia.
Qed.

Lemma miss_txg os : forall d, d_txg (fold_left (disk_miss v) os d) = d_txg d.
Proof. induction os as [|o os IH]; intros d; [reflexivity|]. cbn [fold_left]. rewrite IH. now destruct o. Qed.

Lemma zones_disjoint z z' l : 0 <= z < v_zones v -> 0 <= z' < v_zones v ->
  zs z <= l < ze z -> zs z' <= l < ze z' -> z = z'.
Proof.
  intros H H' Hl Hl'.
  assert (A : v_zone_of v l = Some z) by (apply (g_zone_of v G); auto).
  assert (B : v_zone_of v l = Some z') by (apply (g_zone_of v G); auto). congruence.
Qed.

(** How the view of a zone may change. *)
Definition evolves (op : cop) (o : list vop) (z : Z) (w w' : zview) : Prop :=
  match w' with
  | ZClosed x' =>
    (exists x, w = ZClosed x /\ te x = te x' /\ ts x = ts x' /\ untouched z o)
    \/ (exists sp txg oz x, op = CWrite sp txg /\ w = ZOpen oz x /\ te x' = txg + 1 /\ ts x' = ts x)
  | ZOpen _ x' =>
    (exists oz x, w = ZOpen oz x /\ ts x = ts x')
    \/ (w = ZEmpty /\ exists sp txg, op = CWrite sp txg /\ ts x' = txg)
  | ZDead s' _ => s' = 0 \/ exists s e, w = ZDead s e /\ s' = s
  | ZEmpty => w = ZEmpty \/ In (VErase z) o
  end.

Lemma evolves_same op o z w : untouched z o -> evolves op o z w w.
Proof. intros U. destruct w; cbn; auto; [right|left|left]; eauto. Qed.

Lemma waste_all_ops zl : forall f a f' a' o, waste_all v zl f a = Some (f', a', o) ->
  forall x, In x o -> exists z g, x = VFlush z g.
Proof.
  induction zl as [|z r IH]; intros f a f' a' o H x Hx; cbn [waste_all] in H.
  - inversion H; subst. destruct Hx.
  - destruct (zm_get z (opens f)) as [oz|]; [|discriminate]. cbn [obind] in H.
    destruct (waste_space z (gap_of v (oalloc oz)) f) as [f1|]; [|discriminate]. cbn [obind] in H.
    destruct (waste_all v r f1 _) as [[[f2 a2] o2]|] eqn:E; [|discriminate]. cbn [obind] in H.
    inversion H; subst. destruct Hx as [<-|Hx]; [eauto|]. eapply IH; eauto.
Qed.

Lemma flush_ops i c c' o : flush v i c = Some (c', o) -> forall x, In x o -> exists z g, x = VFlush z g.
Proof.
  unfold flush. destruct (waste_all v _ _ _) as [[[f a] o1]|] eqn:E; [|discriminate]. cbn [obind].
  destruct (write_blocks _ _ _ _); [|discriminate]. cbn [obind]. intros H. inversion H; subst.
  eapply waste_all_ops; eauto.
Qed.

Lemma write_effect c live cl tr space txg c' r o : Inv v c live cl tr -> 0 < space < 2^32 -> 0 <= txg < TXG_MAX ->
  write v space txg c = Some (c', r, o) ->
  forall z, 0 <= z < v_zones v -> evolves (CWrite space txg) o z (view (fs c) z) (view (fs c') z).
Proof.
  intros I Hs Ht E z Hz.
  pose proof (i_rep _ _ _ _ _ I) as R. pose proof (i_tot _ _ _ _ _ I) as T.
  (* opening a fresh zone *)
  assert (Fresh : forall f a o1, rep f -> total_zones f = v_zones v ->
    (forall z', 0 <= z' < v_zones v -> evolves (CWrite space txg) o1 z' (view (fs c) z') (view f z')) ->
    (forall z', view f z' = ZEmpty -> view (fs c) z' = ZEmpty) ->
    (forall l o', In o' o1 -> ~ touches l o') ->
    match find_empty f with
      | None => Some (mkcl f a (sm c), WNoSpace, o1)
      | Some z =>
          let* (f, e) := open_zone z (fst (v_lim v z)) (snd (v_lim v z)) space txg f in
          match e with
          | OzNoSpace => Some (mkcl f a (sm c), WNoSpace, o1)
          | OzOk None => None
          | OzOk (Some (_, lba)) =>
              Some (mkcl f (a + space) (sm c), WOk lba, o1 ++ [VOpen z; VWrite z lba space])
          end
      end = Some (c', r, o) ->
    evolves (CWrite space txg) o z (view (fs c) z) (view (fs c') z)).
  { clear E. intros f a o1 R1 T1 Ev Em Nt E. pose proof (find_empty_spec f R1) as FE. rewrite T1 in FE.
    destruct (find_empty f) as [zf|].
    2: { inversion E; subst. cbn [fs]. auto. }
    destruct FE as [Hzf Ezf]. pose proof (g_size v G zf Hzf) as Hsz. unfold U32MAX in Hsz.
    destruct (Z.ltb_spec (ze zf - zs zf) space) as [Hsp|Hsp].
    - destruct (open_zone_nospace f zf (zs zf) (ze zf) space txg R1 ltac:(lia) Ezf ltac:(lia) Hsp) as (f' & E' & C).
      rewrite E' in E. cbn [obind] in E. inversion E; subst. cbn [fs].
      destruct (Z.eq_dec z zf) as [->|N].
      + rewrite (c_at _ _ _ _ C). cbn. left. auto.
      + rewrite (c_off _ _ _ _ C) by auto. auto.
    - destruct (open_zone_spec f zf (zs zf) (ze zf) space txg R1 ltac:(lia) Ezf ltac:(lia) ltac:(lia) ltac:(lia)) as (f' & E' & C).
      rewrite E' in E. cbn [obind] in E. destruct (Z.gtb_spec space 0); [|lia]. inversion E; subst. cbn [fs].
      destruct (Z.eq_dec z zf) as [->|N].
      + rewrite (c_at _ _ _ _ C). cbn. right. split; [auto|]. eauto.
      + rewrite (c_off _ _ _ _ C) by auto. specialize (Ev z Hz). destruct (view f z) as [| | |x']; cbn in *; auto.
        { destruct Ev as [Ev|Ev]; [now left|right; apply in_app_iff; now left]. }
        destruct Ev as [(x & V & E1 & E2 & U)|Ev]; [left|right; exact Ev].
        exists x. repeat (split; [assumption|]). intros l o' Hl Ho. apply in_app_iff in Ho.
        destruct Ho as [Ho|[<-|[<-|[]]]]; [now apply U|cbn; tauto|]. cbn.
        intros Hw. apply N. apply (zones_disjoint z zf l); auto; lia. }
  unfold write in E.
  destruct (open_case (fs c) R (i_one _ _ _ _ _ I)) as [[On Hno]|(z1 & oz & x & V & Oz)].
  - rewrite try_allocate_none in E by auto. cbn [obind close_zones] in E.
    apply (Fresh (fs c) (alloc_space c) []); auto.
    intros z' Hz'. apply evolves_same. intros l o' _ [].
  - assert (Hz1 : 0 <= z1 < v_zones v).
    { rewrite <- T. pose proof (view_range (fs c) z1 ltac:(congruence)). pose proof (r_len _ R). lia. }
    pose proof (i_zone _ _ _ _ _ I z1 Hz1) as ZI. rewrite V in ZI. cbn [zone_inv] in ZI.
    destruct ZI as (A1 & A2 & A3 & A4 & A5 & A6 & A7).
    pose proof (g_size v G z1 Hz1) as Hsz. unfold U32MAX in Hsz. unfold zstart, zend in *.
    destruct (Z.ltb_spec (total x - oalloc oz) space) as [Hf|Hf].
    + rewrite (try_allocate_full (fs c) space z1 oz x R (i_one _ _ _ _ _ I) V ltac:(lia) ltac:(lia) ltac:(lia)) in E.
      cbn [obind close_zones] in E.
      destruct (finish_spec (fs c) z1 txg oz x R V ltac:(lia) ltac:(lia)) as (f1 & E1 & C1).
      rewrite E1 in E. cbn [obind] in E.
      apply (Fresh f1 (alloc_space c + (total x - oalloc oz)) [VFinish z1]); auto.
      * apply C1.
      * rewrite (c_tot _ _ _ _ C1). auto.
      * intros z' Hz'. destruct (Z.eq_dec z' z1) as [->|N].
        -- rewrite (c_at _ _ _ _ C1), V. cbn. right. exists space, txg, oz, x. auto.
        -- rewrite (c_off _ _ _ _ C1) by auto. apply evolves_same. intros l o' _ [<-|[]]. cbn. tauto.
      * intros z' E'. destruct (Z.eq_dec z' z1) as [->|N].
        -- rewrite (c_at _ _ _ _ C1) in E'. discriminate.
        -- now rewrite (c_off _ _ _ _ C1) in E' by auto.
      * intros l o' [<-|[]]. cbn. tauto.
    + destruct (try_allocate_ok (fs c) space z1 oz x R (i_one _ _ _ _ _ I) V ltac:(lia) ltac:(lia)) as (f1 & E1 & C1).
      rewrite E1 in E. cbn [obind close_zones app] in E. inversion E; subst. cbn [fs].
      destruct (Z.eq_dec z z1) as [->|N].
      * rewrite (c_at _ _ _ _ C1), V. cbn. left. eauto.
      * rewrite (c_off _ _ _ _ C1) by auto. apply evolves_same. intros l o' Hl [<-|[]]. cbn.
        intros Hw. apply N. apply (zones_disjoint z z1 l); auto; lia.
Qed.

Lemma free_effect c live cl tr lba len c' : Inv v c live cl tr -> In (lba, len) live ->
  free v lba len c = Some c' ->
  forall z, 0 <= z < v_zones v -> evolves (CFree lba len) [] z (view (fs c) z) (view (fs c') z).
Proof.
  intros I Hin E z0 Hz0.
  pose proof (i_live _ _ _ _ _ I) as L.
  destruct (l_in v live L (lba, len) Hin) as (Hlen & z & Hz & Hinz & Hs & He). cbn [fst snd] in *.
  pose proof (i_zone _ _ _ _ _ I z Hz) as ZI. pose proof (i_rep _ _ _ _ _ I) as R.
  pose proof (lsum_pos v z live (lba, len) (live_pos v live L) Hin Hinz) as Hlp. cbn [snd] in Hlp.
  assert (Hlen32 : len < 2^32) by (pose proof (g_size v G z Hz); unfold U32MAX, zstart, zend in *; lia).
  assert (Hzo : v_zone_of v lba = Some z).
  { unfold inz in Hinz. cbn [fst] in Hinz. destruct (v_zone_of v lba); [|easy]. f_equal. lia. }
  destruct (free_spec (fs c) z len R) as (f1 & Ef & C1).
  { destruct (view (fs c) z) as [| | oz x | x]; cbn [zone_inv] in ZI; lia. }
  { exact Hlen32. }
  unfold free in E. rewrite Hzo in E. cbn [obind] in E. rewrite Ef in E. cbn [obind] in E.
  pose proof (c_rep _ _ _ _ C1) as R1.
  assert (U : forall z, untouched z []) by (intros ? ? ? ? []).
  assert (Same : forall f', changes f1 f' z (ZDead 0 1) \/ f' = f1 ->
     evolves (CFree lba len) [] z0 (view (fs c) z0) (view f' z0)).
  { intros f' [C2| -> ].
    - destruct (Z.eq_dec z0 z) as [->|N]; [rewrite (c_at _ _ _ _ C2); now left|].
      rewrite (c_off _ _ _ _ C2), (c_off _ _ _ _ C1) by auto. now apply evolves_same.
    - destruct (Z.eq_dec z0 z) as [->|N].
      + rewrite (c_at _ _ _ _ C1). destruct (view (fs c) z); cbn; auto; [right|left|left]; eauto 10.
      + rewrite (c_off _ _ _ _ C1) by auto. now apply evolves_same. }
  destruct (is_closed f1 z) eqn:Ecl.
  - destruct (in_use f1 z) as [u|]; [|discriminate]. cbn [obind] in E.
    destruct (u =? 0); [|inversion E; subst; apply Same; now right].
    rewrite is_closed_view in Ecl by (auto; lia).
    destruct (view f1 z) as [| | |x1] eqn:V1; try discriminate.
    destruct (kill_spec f1 z x1 R1 V1) as (f2 & Ek & C2).
    rewrite Ek in E. cbn [obind] in E. inversion E; subst. apply Same. now left.
  - cbn [obind] in E. inversion E; subst. apply Same. now right.
Qed.

Lemma op_effect c live cl tr op c' r o : Inv v c live cl tr -> legal live false op ->
  step v c op = Some (c', r, o) ->
  forall z, 0 <= z < v_zones v -> evolves op o z (view (fs c) z) (view (fs c') z).
Proof.
  intros I Lg E z Hz. destruct op as [space txg|lba len| | |]; cbn [legal] in Lg.
  - cbn [step] in E. destruct (write v space txg c) as [[[c1 r1] o1]|] eqn:Ew; [|discriminate].
    cbn [obind] in E. inversion E; subst. destruct Lg. eapply write_effect; eauto.
  - cbn [step] in E. destruct (free v lba len c) as [c1|] eqn:Ew; [|discriminate].
    cbn [obind] in E. inversion E; subst. eapply free_effect; eauto.
  - cbn [step] in E. pose proof (advance_inv v c live cl tr I) as (_ & HE & HV).
    destruct (advance c) as [c1 o1] eqn:Ea. cbn [fst snd] in *. inversion E; subst.
    rewrite HV. destruct (view (fs c) z) as [|s e|oz x|x] eqn:V.
    + now left.
    + right. apply HE. eauto.
    + cbn. left. eauto.
    + cbn. left. exists x. repeat (split; [reflexivity|]). intros l o' Hl Ho.
      destruct o'; cbn; try tauto.
      * unfold advance in Ea. destruct (reap (fs c)). inversion Ea; subst.
        apply in_map_iff in Ho. destruct Ho as (? & X & _). discriminate.
      * intros Hz'. apply HE in Ho. destruct Ho as (s & e & V').
        assert (0 <= z0 < v_zones v).
        { rewrite <- (i_tot _ _ _ _ _ I). pose proof (view_range (fs c) z0 ltac:(congruence)).
          pose proof (r_len _ (i_rep _ _ _ _ _ I)). lia. }
        assert (z = z0) by (apply (zones_disjoint z z0 l); auto). congruence.
  - destruct (sync_inv v G c live cl tr I) as (c1 & o1 & E1 & _ & HV). rewrite E in E1. inversion E1; subst c1 r o1. clear E1.
    rewrite HV.
    assert (U : forall z, untouched z o).
    { intros z' l o' _ Ho. cbn [step] in E.
      destruct (flush v 0 c) as [[c1 o1]|] eqn:F0; [|discriminate]. cbn [obind] in E.
      destruct (flush v 1 c1) as [[c2 o2]|] eqn:F1; [|discriminate]. cbn [obind] in E. inversion E; subst.
      apply in_app_iff in Ho. destruct Ho as [Ho|Ho].
      - apply (flush_ops _ _ _ _ F0) in Ho. destruct Ho as (? & ? & ->). cbn. tauto.
      - apply (flush_ops _ _ _ _ F1) in Ho. destruct Ho as (? & ? & ->). cbn. tauto. }
    destruct (view (fs c) z) as [|s e|oz x|x]; cbn; auto.
    + right. eauto.
    + left. exists oz, x. auto.
    + left. exists x. auto.
  - discriminate.
Qed.

Lemma op_inv c live cl tr op c' r o : Inv v c live cl tr -> legal live false op ->
  step v c op = Some (c', r, o) -> Inv v c' (live_next live op r) (clean_next op) (tr ++ o).
Proof.
  intros I Lg E.
  assert (Lg' : legal live cl op) by (destruct op; cbn in *; auto; discriminate).
  destruct (step_inv v G c live cl tr op I Lg') as (c1 & r1 & o1 & E1 & I1). rewrite E in E1.
  injection E1 as <- <- <-. exact I1.
Qed.

(** ** The invariant of the first phase *)

Definition good_to (d : disk) (z n : Z) : Prop := forall l, zs z <= l < zs z + n -> d_good d l = true.
Definition good_zone (d : disk) (z : Z) : Prop := forall l, zs z <= l < ze z -> d_good d l = true.

Record WI (w : world) : Prop := {
  wi_inv : exists cl tr, Inv v (w_c w) (w_live w) cl tr;
  wi_next : t_next (w_task w) < TXG_MAX;
  wi_te : forall z x, view (fs (w_c w)) z = ZClosed x -> te x < TXG_MAX - 1;
  wi_todo : forall z x, 0 <= z < v_zones v -> view (fs (w_c w)) z = ZClosed x ->
            In z (t_zones (w_task w)) \/ t_next (w_task w) < te x \/ good_zone (w_disk w) z;
  wi_done : w_done w = true -> t_zones (w_task w) = []
}.

Lemma order_spec f s wo : rep f ->
  let '(l, mx, mo) := order_zones f s wo in
  (forall z, In z l <-> s < TXG_MAX /\ match view f z with
                          | ZClosed x => s < te x
                          | ZOpen _ _ => wo = true
                          | _ => False
                          end)
  /\ match mx with
     | Some m => (exists z, In z l /\ te_of f z = m) /\ forall z, In z l -> te_of f z <= m
     | None => l = []
     end
  /\ ts_sorted f l.
Proof.
  intros R. unfold order_zones. split; [|split].
  - intros z. rewrite sort_by_in, filter_In, contains_spec by auto.
    unfold is_open. pose proof (is_open_view f z R) as O. unfold is_open in O. rewrite O.
    destruct (view f z), wo; cbn; intuition congruence.
  - set (l := sort_by _ _). pose proof (omax_spec (map (te_of f) l)) as M.
    destruct (omax (map (te_of f) l)) as [m|].
    + destruct M as [M1 M2]. split.
      * apply in_map_iff in M1. destruct M1 as (z & Ez & Hz). eauto.
      * intros z Hz. apply M2. now apply in_map.
    + destruct l; [reflexivity|discriminate].
  - apply sort_sorted.
Qed.

(** What one repair step does; common to both phases. *)
Lemma step_zone c live cl tr t wo t' more wk z rest d : Inv v c live cl tr -> 0 <= z ->
  repair_step (fs c) t wo = Some (t', more, wk) -> t_zones t = z :: rest ->
  t' = Task (t_init t) (t_min_open t) (t_next t) rest /\ more = true
  /\ (forall l, d_good d l = true -> d_good (disk_work v d wk) l = true)
  /\ match view (fs c) z with
     | ZClosed _ => good_zone (disk_work v d wk) z
     | ZOpen oz _ => good_to (disk_work v d wk) z (oalloc oz)
     | _ => wk = Work None None
     end
  /\ (forall x, w_label wk = Some x -> t_init t < x /\ want_txg (fs c) z rest = Some (Some x)
                /\ match t_min_open t with Some y => x < y | None => True end).
Proof.
  intros I Hz E Et. unfold repair_step in E. rewrite Et in E.
  pose proof (i_rep _ _ _ _ _ I) as R.
  assert (Mono : forall wk l, d_good d l = true -> d_good (disk_work v d wk) l = true).
  { intros k l H. unfold disk_work. cbn [d_good]. destruct (w_copy k) as [[? ?]|]; [now rewrite H|exact H]. }
  rewrite is_dead_view, is_empty_view in E by (auto; lia).
  destruct (view (fs c) z) as [|s e|oz x|x] eqn:V; cbn [orb] in E.
  - inversion E; subst. split; [reflexivity|]. split; [reflexivity|]. split; [auto|]. split; [reflexivity|]. cbn. discriminate.
  - inversion E; subst. split; [reflexivity|]. split; [reflexivity|]. split; [auto|]. split; [reflexivity|]. cbn. discriminate.
  - destruct (want_txg (fs c) z rest) as [want|] eqn:W; [|discriminate]. cbn [obind] in E. inversion E; subst; clear E.
    split; [reflexivity|]. split; [reflexivity|]. split; [apply Mono|]. split.
    + pose proof (view_open_inv _ _ _ _ V) as (_ & _ & Go). unfold write_pointer. rewrite Go.
      unfold good_to, disk_work. cbn [w_copy d_good]. intros l Hl.
      destruct (Z.eqb_spec (oalloc oz) 0); [lia|]. cbn [w_copy]. apply orb_true_iff. right. lia.
    + cbn [w_label]. unfold limit_txg. intros y Hy.
      destruct want as [wx|], (t_min_open t) as [mo|]; try discriminate.
      * destruct (Z.gtb_spec mo wx); [|discriminate]. destruct (Z.geb_spec (t_init t) wx); [discriminate|].
        inversion Hy; subst. repeat split; auto; lia.
      * destruct (Z.geb_spec (t_init t) wx); [discriminate|]. inversion Hy; subst. repeat split; auto; lia.
  - destruct (want_txg (fs c) z rest) as [want|] eqn:W; [|discriminate]. cbn [obind] in E. inversion E; subst; clear E.
    split; [reflexivity|]. split; [reflexivity|]. split; [apply Mono|]. split.
    + pose proof (view_closed_inv _ _ _ V) as (_ & _ & Go). unfold write_pointer.
      assert (Gn : zm_get z (opens (fs c)) = None).
      { first [exact Go | (unfold zm_mem in Go; destruct (zm_get z (opens (fs c))); [discriminate|reflexivity])]. }
      rewrite Gn. unfold good_zone, disk_work. cbn [w_copy d_good]. intros l Hl.
      apply orb_true_iff. right. lia.
    + cbn [w_label]. unfold limit_txg. intros y Hy.
      destruct want as [wx|], (t_min_open t) as [mo|]; try discriminate.
      * destruct (Z.gtb_spec mo wx); [|discriminate]. destruct (Z.geb_spec (t_init t) wx); [discriminate|].
        inversion Hy; subst. repeat split; auto; lia.
      * destruct (Z.geb_spec (t_init t) wx); [discriminate|]. inversion Hy; subst. repeat split; auto; lia.
Qed.

Lemma step_list c live cl tr t wo t' more wk : Inv v c live cl tr ->
  repair_step (fs c) t wo = Some (t', more, wk) -> t_zones t = [] ->
  let '(l, mx, mo) := order_zones (fs c) (t_next t) wo in
  wk = Work None None /\ t' = Task (t_init t) mo (match mx with Some m => m + 1 | None => t_next t end) l
  /\ (more = false <-> l = []).
Proof.
  intros I E Et. unfold repair_step in E. rewrite Et in E.
  destruct (order_zones (fs c) (t_next t) wo) as [[l mx] mo].
  assert (Hl : (match l with [] => false | _ => true end = false <-> l = [])) by (destruct l; split; congruence).
  destruct mx as [m|].
  - unfold oassert in E. destruct (m + 1 <? 2^32); [|discriminate]. inversion E; subst. auto.
  - inversion E; subst. auto.
Qed.

Lemma in_range c live cl tr z : Inv v c live cl tr -> view (fs c) z <> ZEmpty -> 0 <= z < v_zones v.
Proof.
  intros I H. rewrite <- (i_tot _ _ _ _ _ I). pose proof (view_range (fs c) z H).
  pose proof (r_len _ (i_rep _ _ _ _ _ I)). lia.
Qed.

(** What may happen in the first phase, for the theorem. *)
Definition ev_ok (w : world) (e : event) : Prop :=
  match e with
  | EOp op => legal (w_live w) false op
              /\ match op with CWrite _ txg => t_next (w_task w) <= txg < TXG_MAX - 2 | _ => True end
  | EStep => True
  end.

Definition zrange_ok (w : world) : Prop := forall z, In z (t_zones (w_task w)) -> 0 <= z < v_zones v.

Lemma order_range c live cl tr s wo l mx mo : Inv v c live cl tr -> order_zones (fs c) s wo = (l, mx, mo) ->
  forall z, In z l -> 0 <= z < v_zones v.
Proof.
  intros I E z Hz. pose proof (order_spec (fs c) s wo (i_rep _ _ _ _ _ I)) as S. rewrite E in S.
  destruct S as (S & _). apply S in Hz. destruct Hz as [_ Hz].
  apply (in_range _ _ _ _ _ I). destruct (view (fs c) z); congruence || easy.
Qed.

Lemma WI_step w e w' : WI w -> zrange_ok w -> ev_ok w e -> wstep v w e = Some w' -> WI w' /\ zrange_ok w'.
Proof.
  intros [Hi Hn Ht Hj Hd] HR He E. destruct Hi as (cl & tr & I). destruct e as [op|]; cbn [wstep] in E.
  - destruct (step v (w_c w) op) as [[[c' r] o]|] eqn:Es; [|discriminate]. inversion E; subst; clear E.
    destruct He as [Lg Hx]. pose proof (op_effect _ _ _ _ _ _ _ _ I Lg Es) as Ev.
    pose proof (op_inv _ _ _ _ _ _ _ _ I Lg Es) as I'.
    split; [|exact HR]. split; cbn [w_c w_live w_disk w_task w_done]; auto.
    + eauto.
    + intros z x V. pose proof (in_range _ _ _ _ z I' ltac:(congruence)) as Hz. specialize (Ev z Hz). rewrite V in Ev.
      destruct Ev as [(x0 & V0 & E1 & E2 & U)|(sp & txg & oz & x0 & -> & V0 & E1 & E2)].
      * rewrite <- E1. eauto.
      * lia.
    + intros z x Hz V. specialize (Ev z Hz). rewrite V in Ev.
      destruct Ev as [(x0 & V0 & E1 & E2 & U)|(sp & txg & oz & x0 & -> & V0 & E1 & E2)].
      * rewrite <- E1. destruct (Hj z x0 Hz V0) as [A|[A|A]]; [now left|right; now left|right; right].
        intros l Hl. apply miss_good; [now apply A|]. intros o' Ho. now apply U.
      * right. left. lia.
  - destruct (w_done w) eqn:Ed; [discriminate|].
    destruct (repair_step (fs (w_c w)) (w_task w) false) as [[[t' more] wk]|] eqn:Er; [|discriminate].
    inversion E; subst; clear E.
    destruct (t_zones (w_task w)) as [|z rest] eqn:Ez.
    + pose proof (step_list _ _ _ _ _ _ _ _ _ I Er Ez) as SL.
      destruct (order_zones (fs (w_c w)) (t_next (w_task w)) false) as [[l mx] mo] eqn:Eo.
      destruct SL as (-> & -> & Hm).
      pose proof (order_spec (fs (w_c w)) (t_next (w_task w)) false (i_rep _ _ _ _ _ I)) as S. rewrite Eo in S.
      destruct S as (S1 & S2 & _).
      split.
      * split; cbn [w_c w_live w_disk w_task w_done t_zones t_next].
        -- eauto.
        -- destruct mx as [m|]; [|assumption]. destruct S2 as [(z & Hz & <-) _].
           apply S1 in Hz. destruct Hz as [_ Hz]. destruct (view (fs (w_c w)) z) eqn:V; try easy.
           destruct (view_ts _ _ _ V) as [_ ->]. specialize (Ht z x V). lia.
        -- exact Ht.
        -- intros z x Hz V. destruct (Hj z x Hz V) as [A|[A|A]]; [destruct A| |].
           ++ left. apply S1. rewrite V. auto.
           ++ right. right. intros y Hy. unfold disk_work. cbn. now apply A.
        -- intros Hd'. apply Hm. now apply negb_true_iff.
      * intros z Hz. cbn in Hz. exact (order_range _ _ _ _ _ _ _ _ _ I Eo z Hz).
    + assert (Hz0 : 0 <= z < v_zones v) by (apply HR; rewrite Ez; now left).
      pose proof (step_zone _ _ _ _ _ _ _ _ _ _ _ (w_disk w) I (proj1 Hz0) Er Ez) as (-> & -> & Hg & Hc & _).
      split.
      * split; cbn [w_c w_live w_disk w_task w_done t_zones t_next negb]; auto; try discriminate.
        -- eauto.
        -- intros z' x Hz' V. destruct (Hj z' x Hz' V) as [[<-|A]|[A|A]].
           ++ right. right. rewrite V in Hc. exact Hc.
           ++ now left.
           ++ right. now left.
           ++ right. right. intros l Hl. apply Hg. now apply A.
      * intros z' Hz'. cbn in Hz'. apply HR. rewrite Ez. now right.
Qed.

(** ** The second phase *)

Record FI (w : world) : Prop := {
  fi_inv : exists cl tr, Inv v (w_c w) (w_live w) cl tr;
  fi_range : zrange_ok w;
  fi_closed : forall z x, 0 <= z < v_zones v -> view (fs (w_c w)) z = ZClosed x ->
            te x < TXG_MAX /\ (In z (t_zones (w_task w)) \/ t_next (w_task w) < te x \/ good_zone (w_disk w) z);
  fi_open : forall z oz x, 0 <= z < v_zones v -> view (fs (w_c w)) z = ZOpen oz x ->
            In z (t_zones (w_task w)) \/ t_next (w_task w) < TXG_MAX \/ good_to (w_disk w) z (oalloc oz);
}.

Lemma FI_step w t' more wk : FI w ->
  repair_step (fs (w_c w)) (w_task w) true = Some (t', more, wk) ->
  let w' := World (w_c w) (w_live w) (disk_work v (w_disk w) wk) t' (w_done w) in
  FI w' /\ (more = false ->
     forall z, 0 <= z < v_zones v -> match view (fs (w_c w)) z with
       | ZClosed _ => good_zone (w_disk w') z
       | ZOpen oz _ => good_to (w_disk w') z (oalloc oz)
       | _ => True
       end).
Proof.
  intros [(cl & tr & I) HR Hc Ho] E w'.
  destruct (t_zones (w_task w)) as [|z rest] eqn:Ez.
  - pose proof (step_list _ _ _ _ _ _ _ _ _ I E Ez) as SL.
    destruct (order_zones (fs (w_c w)) (t_next (w_task w)) true) as [[l mx] mo] eqn:Eo.
    destruct SL as (-> & -> & Hm).
    pose proof (order_spec (fs (w_c w)) (t_next (w_task w)) true (i_rep _ _ _ _ _ I)) as S. rewrite Eo in S.
    destruct S as (S1 & S2 & _).
    assert (D : disk_work v (w_disk w) (Work None None) = w_disk w) by (destruct (w_disk w); reflexivity).
    subst w'. rewrite D. split.
    + split; cbn [w_c w_live w_disk w_task w_done t_zones t_next]; auto.
      * eauto.
      * intros z Hz. cbn in Hz. exact (order_range _ _ _ _ _ _ _ _ _ I Eo z Hz).
      * intros z x Hz V. destruct (Hc z x Hz V) as [T [A|[A|A]]]; [destruct A| |]; split; auto.
        left. apply S1. rewrite V. split; [lia|auto].
      * intros z oz x Hz V. destruct (Ho z oz x Hz V) as [A|[A|A]]; [destruct A| |]; auto.
        left. apply S1. rewrite V. auto.
    + intros Hmf z Hz. apply Hm in Hmf. subst l. cbn [w_disk].
      destruct (view (fs (w_c w)) z) as [| |oz x|x] eqn:V; auto.
      * destruct (Ho z oz x Hz V) as [A|[A|A]]; [destruct A| |exact A].
        exfalso. apply (proj2 (S1 z)). rewrite V. auto.
      * destruct (Hc z x Hz V) as [T [A|[A|A]]]; [destruct A| |exact A].
        exfalso. apply (proj2 (S1 z)). rewrite V. split; [lia|auto].
  - assert (Hz0 : 0 <= z < v_zones v) by (apply HR; rewrite Ez; now left).
    pose proof (step_zone _ _ _ _ _ _ _ _ _ _ _ (w_disk w) I (proj1 Hz0) E Ez) as (-> & -> & Hg & Hs & _).
    subst w'. split; [|discriminate].
    split; cbn [w_c w_live w_disk w_task w_done t_zones t_next]; auto.
    + eauto.
    + intros z' Hz'. cbn in Hz'. apply HR. rewrite Ez. now right.
    + intros z' x Hz' V. destruct (Hc z' x Hz' V) as [T [[<-|A]|[A|A]]]; split; auto.
      * right. right. rewrite V in Hs. exact Hs.
      * right. right. intros l Hl. apply Hg. now apply A.
    + intros z' oz x Hz' V. destruct (Ho z' oz x Hz' V) as [[<-|A]|[A|A]]; auto.
      * right. right. rewrite V in Hs. exact Hs.
      * right. right. intros l Hl. apply Hg. now apply A.
Qed.

Lemma finalize_good fuel : forall w w', FI w -> finalize v fuel w = Some w' ->
  w_c w' = w_c w /\ w_live w' = w_live w /\
  forall z, 0 <= z < v_zones v -> match view (fs (w_c w)) z with
       | ZClosed _ => good_zone (w_disk w') z
       | ZOpen oz _ => good_to (w_disk w') z (oalloc oz)
       | _ => True
       end.
Proof.
  induction fuel as [|n IH]; intros w w' F E; [discriminate|]. cbn [finalize] in E.
  destruct (repair_step (fs (w_c w)) (w_task w) true) as [[[t' more] wk]|] eqn:Er; [|discriminate].
  destruct (FI_step w t' more wk F Er) as [F' HF]. cbv zeta in F', HF.
  destruct more.
  - destruct (IH _ _ F' E) as (A & B & C). cbn [w_c w_live] in *. auto.
  - inversion E; subst. cbn [w_c w_live]. split; [reflexivity|]. split; [reflexivity|]. now apply HF.
Qed.

Lemma WI_FI w : WI w -> zrange_ok w -> FI w.
Proof.
  intros [Hi Hn Ht Hj Hd] HR. split; auto.
  intros z x Hz V. split; [specialize (Ht z x V); lia|eauto].
Qed.

(** Termination of the second phase: after the list at hand, one more list is
    made, and a last one that is empty. *)
Lemma finalize_total_list l : forall w, FI w -> t_zones (w_task w) = l ->
  (forall z, In z l -> view (fs (w_c w)) z <> ZEmpty) ->
  (forall z x, view (fs (w_c w)) z = ZClosed x -> te x <= t_next (w_task w)) ->
  (forall z oz x, view (fs (w_c w)) z = ZOpen oz x -> TXG_MAX <= t_next (w_task w)) ->
  exists fuel w', finalize v fuel w = Some w'.
Proof.
  induction l as [|z rest IH]; intros w F El Hne Hcl Hop.
  - exists 1%nat. cbn [finalize].
    destruct (fi_inv _ F) as (cl & tr & I).
    unfold repair_step. rewrite El.
    pose proof (order_spec (fs (w_c w)) (t_next (w_task w)) true (i_rep _ _ _ _ _ I)) as S.
    destruct (order_zones (fs (w_c w)) (t_next (w_task w)) true) as [[l mx] mo]. destruct S as (S1 & S2 & _).
    assert (l = []).
    { destruct l as [|z l]; [reflexivity|]. exfalso. destruct (proj1 (S1 z) (or_introl eq_refl)) as [T V].
      destruct (view (fs (w_c w)) z) as [| |oz x|x] eqn:Vz; try easy.
      - specialize (Hop _ _ _ Vz). lia.
      - specialize (Hcl _ _ Vz). lia. }
    subst l. destruct mx as [m|]; [destruct S2 as [(z & [] & _) _]|]. eauto.
  - destruct (fi_inv _ F) as (cl & tr & I).
    assert (exists t' wk, repair_step (fs (w_c w)) (w_task w) true = Some (t', true, wk)) as (t' & wk & Er).
    { unfold repair_step. rewrite El. destruct (is_dead _ z || is_empty _ z); [eauto|].
      assert (exists want, want_txg (fs (w_c w)) z rest = Some want) as [want ->]; [|cbn [obind]; eauto].
      destruct rest as [|y r]; cbn [want_txg]; [eauto|].
      assert (Hy : view (fs (w_c w)) y <> ZEmpty) by (apply Hne; right; now left).
      pose proof (view_range _ _ Hy) as Hr. destruct (lget_some (zones (fs (w_c w))) y Hr) as [zy ->]. cbn [obind]. eauto. }
    pose proof (FI_step w t' true wk F Er) as [F' _]. cbv zeta in F'.
    assert (Hz0 : 0 <= z < v_zones v) by (apply (fi_range _ F); rewrite El; now left).
    pose proof (step_zone _ _ _ _ _ _ _ _ _ _ _ (w_disk w) I (proj1 Hz0) Er El) as (Et & _).
    destruct (IH (World (w_c w) (w_live w) (disk_work v (w_disk w) wk) t' (w_done w)) F') as (fuel & w' & Ef).
    + cbn. now rewrite Et.
    + intros z' Hz'. apply Hne. now right.
    + cbn. rewrite Et. exact Hcl.
    + cbn. rewrite Et. exact Hop.
    + exists (S fuel), w'. cbn [finalize]. rewrite Er. exact Ef.
Qed.

Lemma finalize_total w : FI w -> t_zones (w_task w) = [] -> t_next (w_task w) < TXG_MAX ->
  exists fuel w', finalize v fuel w = Some w'.
Proof.
  intros F El Hn. destruct (fi_inv _ F) as (cl & tr & I).
  pose proof (order_spec (fs (w_c w)) (t_next (w_task w)) true (i_rep _ _ _ _ _ I)) as S.
  destruct (order_zones (fs (w_c w)) (t_next (w_task w)) true) as [[l mx] mo] eqn:Eo. destruct S as (S1 & S2 & _).
  assert (Hte : forall z x, view (fs (w_c w)) z = ZClosed x -> te x < TXG_MAX).
  { intros z x V. eapply (fi_closed _ F); eauto. eapply in_range; eauto. congruence. }
  assert (Hto : forall z oz x, view (fs (w_c w)) z = ZOpen oz x -> te x = TXG_MAX).
  { intros z oz x V. assert (Hz : 0 <= z < v_zones v) by (eapply in_range; eauto; congruence).
    pose proof (i_zone _ _ _ _ _ I z Hz) as ZI. rewrite V in ZI. cbn in ZI. apply ZI. }
  assert (Hm : forall m, mx = Some m -> m <= TXG_MAX).
  { intros m ->. destruct S2 as [(z & Hz & <-) _]. apply S1 in Hz. destruct Hz as [_ Hz].
    destruct (view (fs (w_c w)) z) as [| |oz x|x] eqn:V; try easy.
    - destruct (view_ts_open _ _ _ _ V) as [_ ->]. rewrite (Hto _ _ _ V). lia.
    - destruct (view_ts _ _ _ V) as [_ ->]. specialize (Hte _ _ V). lia. }
  assert (exists more, repair_step (fs (w_c w)) (w_task w) true =
     Some (Task (t_init (w_task w)) mo (match mx with Some m => m + 1 | None => t_next (w_task w) end) l, more, Work None None)) as [more Er].
  { unfold repair_step. rewrite El, Eo. destruct mx as [m|]; [|eauto].
    specialize (Hm m eq_refl). unfold oassert. destruct (Z.ltb_spec (m + 1) (2^32)); [eauto|]. unfold TXG_MAX in Hm. lia. }
  destruct more.
  - pose proof (FI_step w _ _ _ F Er) as [F' _]. cbv zeta in F'.
    destruct (finalize_total_list l _ F') as (fuel & w' & Ef).
    + reflexivity.
    + intros z Hz. cbn. apply S1 in Hz. destruct Hz as [_ Hz]. destruct (view (fs (w_c w)) z); easy.
    + cbn [w_c w_task t_next]. intros z x V. destruct mx as [m|].
      * destruct S2 as [_ S2]. destruct (Z.ltb_spec (t_next (w_task w)) (te x)).
        -- specialize (S2 z). destruct (view_ts _ _ _ V) as [_ E]. rewrite E in S2.
           assert (te x <= m); [|lia]. apply S2. apply S1. rewrite V. split; [lia|auto].
        -- destruct (S1 z) as [_ _]. assert (t_next (w_task w) <= m); [|lia].
           destruct l as [|z1 l1]; [cbn in Er; exfalso|].
           ++ unfold repair_step in Er. rewrite El, Eo in Er. unfold oassert in Er.
              destruct (m + 1 <? 2^32); inversion Er.
           ++ pose proof (S2 z1 (or_introl eq_refl)) as A. destruct (proj1 (S1 z1) (or_introl eq_refl)) as [_ B].
              destruct (view (fs (w_c w)) z1) as [| |oz1 x1|x1] eqn:V1; try easy.
              ** destruct (view_ts_open _ _ _ _ V1) as [_ E1]. rewrite E1, (Hto _ _ _ V1) in A. lia.
              ** destruct (view_ts _ _ _ V1) as [_ E1]. rewrite E1 in A. lia.
      * subst l. destruct (Z.ltb_spec (t_next (w_task w)) (te x)); [|lia].
        exfalso. apply (proj2 (S1 z)). rewrite V. split; [lia|auto].
    + cbn [w_c w_task t_next]. intros z oz x V. destruct mx as [m|].
      * destruct S2 as [_ S2]. specialize (S2 z). destruct (view_ts_open _ _ _ _ V) as [_ E]. rewrite E, (Hto _ _ _ V) in S2.
        assert (TXG_MAX <= m); [|lia]. apply S2. apply S1. rewrite V. auto.
      * subst l. exfalso. apply (proj2 (S1 z)). rewrite V. auto.
    + exists (S fuel), w'. cbn [finalize]. rewrite Er. exact Ef.
  - eexists 1%nat, _. cbn [finalize]. rewrite Er. reflexivity.
Qed.

(** ** The label of the disk under repair *)

Definition ev_label (w : world) (e : event) : Prop :=
  match e with
  | EOp op =>
    (forall c' r o z, step v (w_c w) op = Some (c', r, o) -> In (VErase z) o -> ~ In z (t_zones (w_task w)))
    /\ match op with
       | CWrite _ txg => d_txg (w_disk w) <= txg /\ forall z, is_open (fs (w_c w)) z = true -> ts_of (fs (w_c w)) z <= txg
       | _ => True
       end
  | EStep => True
  end.

Definition closed_le (f : fsm) (a b : Z) : Prop :=
  forall xa xb, view f a = ZClosed xa -> view f b = ZClosed xb -> ts xa <= ts xb.

Record LI (w : world) : Prop := {
  li_sound : forall z x, 0 <= z < v_zones v -> view (fs (w_c w)) z = ZClosed x ->
             te x <= d_txg (w_disk w) -> good_zone (w_disk w) z;
  li_ts : forall z x, view (fs (w_c w)) z = ZClosed x -> 0 <= ts x < te x;
  li_to : forall z oz x, view (fs (w_c w)) z = ZOpen oz x -> 0 <= ts x;
  li_list : forall z, In z (t_zones (w_task w)) ->
            (exists x, view (fs (w_c w)) z = ZClosed x /\ te x <= t_next (w_task w))
            \/ exists s e, view (fs (w_c w)) z = ZDead s e;
  li_sorted : Sorted.StronglySorted (closed_le (fs (w_c w))) (t_zones (w_task w))
}.

Lemma sorted_weaken (P Q : Z -> Z -> Prop) l :
  (forall a b, In a l -> In b l -> P a b -> Q a b) -> Sorted.StronglySorted P l -> Sorted.StronglySorted Q l.
Proof.
  induction l as [|x r IH]; intros H S; [constructor|]. inversion S as [|? ? S1 S2]; subst. constructor.
  - apply IH; [|assumption]. intros a b Ha Hb. apply H; now right.
  - rewrite Forall_forall in *. intros y Hy. apply H; [now left|now right|auto].
Qed.

Lemma list_sorted_closed f l : ts_sorted f l -> Sorted.StronglySorted (closed_le f) l.
Proof.
  apply sorted_weaken. intros a b _ _ H xa xb Va Vb.
  destruct (view_ts _ _ _ Va) as [Ea _], (view_ts _ _ _ Vb) as [Eb _]. lia.
Qed.

Lemma LI_step w e w' : WI w -> zrange_ok w -> LI w -> ev_ok w e -> ev_label w e -> wstep v w e = Some w' -> LI w'.
Proof.
  intros [Hi Hn Ht Hj Hd] HR [L1 L2 L3 L4 L5] He Hl E. destruct Hi as (cl & tr & I).
  pose proof (i_rep _ _ _ _ _ I) as R. destruct e as [op|]; cbn [wstep] in E.
  - destruct (step v (w_c w) op) as [[[c' r] o]|] eqn:Es; [|discriminate]. inversion E; subst; clear E.
    destruct He as [Lg Hx], Hl as [Her Hw]. specialize (fun z => Her _ _ _ z Es).
    pose proof (op_effect _ _ _ _ _ _ _ _ I Lg Es) as Ev.
    pose proof (op_inv _ _ _ _ _ _ _ _ I Lg Es) as I'.
    assert (Old : forall z x, In z (t_zones (w_task w)) -> view (fs c') z = ZClosed x ->
                  exists x0, view (fs (w_c w)) z = ZClosed x0 /\ ts x0 = ts x /\ te x0 = te x).
    { intros z x Hz V. specialize (Ev z (HR z Hz)). rewrite V in Ev.
      destruct Ev as [(x0 & V0 & E1 & E2 & _)|(sp & txg & oz & x0 & _ & V0 & _)]; [eauto|].
      destruct (L4 z Hz) as [(y & Vy & _)|(s & e & Vy)]; congruence. }
    split; cbn [w_c w_live w_disk w_task w_done].
    + intros z x Hz V Hle. rewrite miss_txg in Hle. specialize (Ev z Hz). rewrite V in Ev.
      destruct Ev as [(x0 & V0 & E1 & E2 & U)|(sp & txg & oz & x0 & -> & V0 & E1 & E2)].
      * intros l Hl. apply miss_good; [eapply L1; eauto; lia|]. intros o' Ho. now apply U.
      * lia.
    + intros z x V. pose proof (in_range _ _ _ _ z I' ltac:(congruence)) as Hz. specialize (Ev z Hz). rewrite V in Ev.
      destruct Ev as [(x0 & V0 & E1 & E2 & U)|(sp & txg & oz & x0 & -> & V0 & E1 & E2)].
      * rewrite <- E1, <- E2. eauto.
      * specialize (L3 _ _ _ V0). destruct Hw as [_ Hw]. specialize (Hw z).
        unfold is_open in Hw. rewrite is_open_view, V0 in Hw by auto. specialize (Hw eq_refl).
        destruct (view_ts_open _ _ _ _ V0) as [Et _]. lia.
    + intros z oz x V. pose proof (in_range _ _ _ _ z I' ltac:(congruence)) as Hz. specialize (Ev z Hz). rewrite V in Ev.
      destruct Ev as [(oz0 & x0 & V0 & E1)|(V0 & sp & txg & -> & E1)].
      * rewrite <- E1. eauto.
      * cbn in Lg. lia.
    + intros z Hz. specialize (Ev z (HR z Hz)). destruct (view (fs c') z) as [|s e|oz x|x] eqn:V.
      * exfalso. destruct Ev as [Ev|Ev]; [|now apply (Her z)].
        destruct (L4 z Hz) as [(y & Vy & _)|(s & e & Vy)]; congruence.
      * right. eauto.
      * exfalso. destruct Ev as [(oz0 & x0 & V0 & E1)|(V0 & _)];
          destruct (L4 z Hz) as [(y & Vy & _)|(s & e & Vy)]; congruence.
      * left. destruct (Old z x Hz V) as (x0 & V0 & E1 & E2). exists x. split; [reflexivity|].
        destruct (L4 z Hz) as [(y & Vy & Ey)|(s & e & Vy)]; [|congruence].
        assert (y = x0) by congruence. subst. lia.
    + revert L5. apply sorted_weaken. intros a b Ha Hb H xa xb Va Vb.
      destruct (Old a xa Ha Va) as (ya & Wa & Ea & _), (Old b xb Hb Vb) as (yb & Wb & Eb & _).
      specialize (H _ _ Wa Wb). lia.
  - destruct (w_done w) eqn:Ed; [discriminate|].
    destruct (repair_step (fs (w_c w)) (w_task w) false) as [[[t' more] wk]|] eqn:Er; [|discriminate].
    inversion E; subst; clear E.
    destruct (t_zones (w_task w)) as [|z rest] eqn:Ez.
    + pose proof (step_list _ _ _ _ _ _ _ _ _ I Er Ez) as SL.
      destruct (order_zones (fs (w_c w)) (t_next (w_task w)) false) as [[l mx] mo] eqn:Eo.
      destruct SL as (-> & -> & Hm).
      pose proof (order_spec (fs (w_c w)) (t_next (w_task w)) false R) as S. rewrite Eo in S.
      destruct S as (S1 & S2 & S3).
      assert (Dk : disk_work v (w_disk w) (Work None None) = w_disk w) by (destruct (w_disk w); reflexivity).
      split; cbn [w_c w_live w_disk w_task w_done t_zones t_next]; rewrite ?Dk; auto.
      * intros z Hz. left. pose proof Hz as Hz'. apply S1 in Hz. destruct Hz as [_ Hz].
        destruct (view (fs (w_c w)) z) as [| |oz x|x] eqn:V; try easy. exists x. split; [reflexivity|].
        destruct mx as [m|]; [|subst l; destruct Hz']. destruct S2 as [_ S2]. specialize (S2 z Hz').
        destruct (view_ts _ _ _ V) as [_ Ee]. lia.
      * now apply list_sorted_closed.
    + assert (Hz0 : 0 <= z < v_zones v) by (apply HR; rewrite Ez; now left).
      pose proof (step_zone _ _ _ _ _ _ _ _ _ _ _ (w_disk w) I (proj1 Hz0) Er Ez) as (-> & -> & Hg & Hc & Hlab).
      inversion L5 as [|? ? L5a L5b]; subst. rewrite Forall_forall in L5b.
      split; cbn [w_c w_live w_disk w_task w_done t_zones t_next negb]; auto.
      2: { intros y Hy. apply L4. now right. }
      intros z' x Hz' V Hle.
      destruct (w_label wk) as [lb|] eqn:Ew.
      2: { unfold disk_work in Hle. rewrite Ew in Hle. cbn [d_txg] in Hle.
           intros l Hl'. apply Hg. eapply L1; eauto. }
      assert (Elb : d_txg (disk_work v (w_disk w) wk) = lb) by (unfold disk_work; rewrite Ew; reflexivity).
      rewrite Elb in Hle. clear Elb.
      destruct (Hlab lb eq_refl) as (_ & Hwant & _). clear Hlab.
      (* [z] itself is a closed zone *)
      destruct (L4 z (or_introl eq_refl)) as [(xz & Vz & Tz)|(s & e & Vz)].
      2: { rewrite Vz in Hc. subst wk. discriminate. }
      rewrite Vz in Hc. destruct (view_ts _ _ _ Vz) as [Zs Ze].
      assert (Bound : lb < t_next (w_task w) /\ forall y xy, In y rest -> view (fs (w_c w)) y = ZClosed xy -> lb < te xy).
      { destruct rest as [|y1 r1]; cbn [want_txg] in Hwant.
        - injection Hwant as <-. split; [lia|]. intros y xy [].
        - destruct (lget (zones (fs (w_c w))) y1) as [zy|] eqn:Ly; [|discriminate]. cbn [obind] in Hwant.
          destruct (Z.ltb_spec (ts_of (fs (w_c w)) z) (ts zy)) as [Hlt|]; [|discriminate].
          injection Hwant as <-. pose proof (L2 _ _ Vz) as Bz.
          destruct (L4 y1 (or_intror (or_introl eq_refl))) as [(x1 & V1 & T1)|(s & e & V1)].
          + pose proof (view_closed_inv _ _ _ V1) as (Lx & _). rewrite Ly in Lx. injection Lx as ->.
            pose proof (L2 _ _ V1). split; [lia|]. intros y xy [<-|Hy] Vy.
            * assert (xy = x1) by congruence. subst. lia.
            * inversion L5a as [|? ? _ L5c]; subst. rewrite Forall_forall in L5c.
              pose proof (L5c y Hy _ _ V1 Vy). pose proof (L2 _ _ Vy). lia.
          + pose proof (view_dead_inv _ _ _ _ V1) as (x1 & Lx & _ & Ex & _).
            rewrite Ly in Lx. injection Lx as ->.
            assert (Hy1 : 0 <= y1 < v_zones v) by (apply (in_range _ _ _ _ _ I); congruence).
            pose proof (i_zone _ _ _ _ _ I y1 Hy1) as ZI. rewrite V1 in ZI. cbn [zone_inv] in ZI. lia. }
      destruct (Hj z' x Hz' V) as [[<-|A]|[A|A]].
      * exact Hc.
      * destruct Bound as [_ B]. specialize (B z' x A V). lia.
      * lia.
      * intros l Hl'. apply Hg. now apply A.
Qed.

(** Under the same hypotheses no step panics. *)
Lemma step_no_panic w : WI w -> LI w -> w_done w = false -> wstep v w EStep <> None.
Proof.
  intros W L Ed. destruct W as [Hi Hn Ht Hj Hd]. destruct Hi as (cl & tr & I). pose proof (i_rep _ _ _ _ _ I) as R.
  cbn [wstep]. rewrite Ed. unfold repair_step.
  pose proof (li_list _ L) as L4. destruct (t_zones (w_task w)) as [|z rest].
  - pose proof (order_spec (fs (w_c w)) (t_next (w_task w)) false R) as S.
    destruct (order_zones (fs (w_c w)) (t_next (w_task w)) false) as [[l mx] mo].
    destruct S as (S1 & S2 & _). destruct mx as [m|]; [|discriminate].
    destruct S2 as [(z & Hz & Ez) _]. apply S1 in Hz. destruct Hz as [_ Hz].
    destruct (view (fs (w_c w)) z) as [| |oz x|x] eqn:V; try easy.
    destruct (view_ts _ _ _ V) as [_ Ee]. specialize (Ht z x V). unfold oassert, TXG_MAX in *.
    destruct (Z.ltb_spec (m + 1) (2^32)); [discriminate|lia].
  - destruct (is_dead _ z || is_empty _ z); [discriminate|].
    destruct rest as [|y r]; cbn [want_txg obind]; [discriminate|].
    assert (Hy : view (fs (w_c w)) y <> ZEmpty).
    { destruct (L4 y (or_intror (or_introl eq_refl))) as [(x1 & V1 & T1)|(s & e & V1)]; congruence. }
    pose proof (view_range _ _ Hy) as Hr. destruct (lget_some (zones (fs (w_c w))) y Hr) as [zy ->]. discriminate.
Qed.

(** ** The start *)

Lemma start_inv c live cl tr d : Inv v c live cl tr ->
  (forall z x, 0 <= z < v_zones v -> view (fs c) z = ZClosed x -> te x < TXG_MAX - 1) ->
  (forall z x, 0 <= z < v_zones v -> view (fs c) z = ZClosed x -> te x <= d_txg d -> good_zone d z) ->
  0 <= d_txg d < TXG_MAX ->
  let w := World c live d (repair_start (fs c) (d_txg d)) false in
  WI w /\ zrange_ok w.
Proof.
  intros I Ht Hs Hd. cbn zeta. pose proof (i_rep _ _ _ _ _ I) as R.
  unfold repair_start. pose proof (order_spec (fs c) (d_txg d) false R) as S.
  destruct (order_zones (fs c) (d_txg d) false) as [[l mx] mo] eqn:Eo. destruct S as (S1 & S2 & S3).
  split.
  - split; cbn [w_c w_live w_disk w_task w_done t_next t_zones].
    + eauto.
    + destruct mx as [m|]; [|unfold TXG_MAX; lia]. destruct S2 as [(z & Hz & Ez) _]. apply S1 in Hz. destruct Hz as [_ Hz].
      destruct (view (fs c) z) as [| |oz x|x] eqn:V; try easy.
      destruct (view_ts _ _ _ V) as [_ Ee]. pose proof (in_range _ _ _ _ z I ltac:(congruence)) as Hr.
      specialize (Ht z x Hr V). lia.
    + intros z x V. pose proof (in_range _ _ _ _ z I ltac:(congruence)) as Hr. eauto.
    + intros z x Hz V. destruct (Z.leb_spec (te x) (d_txg d)); [right; right; eauto|].
      left. apply S1. rewrite V. lia.
    + discriminate.
  - intros z Hz. cbn in Hz. exact (order_range _ _ _ _ _ _ _ _ _ I Eo z Hz).
Qed.

Lemma start_label c live cl tr d : Inv v c live cl tr ->
  (forall z x, 0 <= z < v_zones v -> view (fs c) z = ZClosed x -> te x <= d_txg d -> good_zone d z) ->
  (forall z x, view (fs c) z = ZClosed x -> 0 <= ts x < te x) ->
  (forall z oz x, view (fs c) z = ZOpen oz x -> 0 <= ts x) ->
  LI (World c live d (repair_start (fs c) (d_txg d)) false).
Proof.
  intros I Hs H1 H2. pose proof (i_rep _ _ _ _ _ I) as R.
  unfold repair_start. pose proof (order_spec (fs c) (d_txg d) false R) as S.
  destruct (order_zones (fs c) (d_txg d) false) as [[l mx] mo] eqn:Eo. destruct S as (S1 & S2 & S3).
  split; cbn [w_c w_live w_disk w_task w_done t_next t_zones]; eauto.
  - intros z Hz. left. pose proof Hz as Hz'. apply S1 in Hz. destruct Hz as [_ Hz].
    destruct (view (fs c) z) as [| |oz x|x] eqn:V; try easy. exists x. split; [reflexivity|].
    destruct mx as [m|]; [|subst l; destruct Hz']. destruct S2 as [_ S2]. specialize (S2 z Hz').
    destruct (view_ts _ _ _ V) as [_ Ee]. lia.
  - now apply list_sorted_closed.
Qed.

End Inv.
