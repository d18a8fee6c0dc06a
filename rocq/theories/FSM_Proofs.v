(** Proofs about the free-space map model: every operation is described by its
    effect on a per-zone view. *)
From Verif Require Import Common ZMap FSM_Model.
From Coq Require Import Sorting.Sorted.

(** What the free-space map says about one zone. *)
Inductive zview :=
| ZEmpty
| ZDead (s e : Z)
| ZOpen (oz : ozone) (x : zone)
| ZClosed (x : zone).

Definition view (f : fsm) (z : Z) : zview :=
  match lget (zones f) z with
  | None => ZEmpty
  | Some x =>
      if zm_mem z (empties f) then (if te x =? 0 then ZEmpty else ZDead (ts x) (te x))
      else match zm_get z (opens f) with Some oz => ZOpen oz x | None => ZClosed x end
  end.

Definition alloc_v (w : zview) : Z :=
  match w with ZEmpty | ZDead _ _ => 0 | ZOpen oz _ => oalloc oz | ZClosed x => total x end.
Definition use_v (w : zview) : Z :=
  match w with ZEmpty | ZDead _ _ => 0 | ZOpen oz x => oalloc oz - freed x | ZClosed x => total x - freed x end.
Definition zod_v (w : zview) : zod :=
  match w with
  | ZEmpty => mkzod 0 0 0 0
  | ZDead s e => mkzod 0 0 s e
  | ZOpen oz x => mkzod (oalloc oz) (freed x) (ts x) (te x)
  | ZClosed x => mkzod U32MAX (freed x) (ts x) (te x)
  end.

Record rep (f : fsm) : Prop := {
  r_eok : zm_ok (empties f);
  r_ook : zm_ok (opens f);
  r_erange : forall z, zm_mem z (empties f) = true -> 0 <= z < zlen (zones f);
  r_orange : forall z, zm_mem z (opens f) = true -> 0 <= z < zlen (zones f);
  r_disj : forall z, zm_mem z (empties f) = true -> zm_mem z (opens f) = true -> False;
  r_len : zlen (zones f) <= total_zones f;
  r_te : forall z x, zm_mem z (empties f) = true -> lget (zones f) z = Some x -> 0 <= te x
}.

(** [f'] differs from [f] by the view of zone [z], which is now [w]. *)
Record changes (f f' : fsm) (z : Z) (w : zview) : Prop := {
  c_rep : rep f';
  c_tot : total_zones f' = total_zones f;
  c_at : view f' z = w;
  c_off : forall j, j <> z -> view f' j = view f j;
  c_dirty : forall b, dirty f' b = (b =? z / ZPL) || dirty f b
}.

Lemma zlen_nonneg' {A} (l : list A) : 0 <= zlen l.
Proof. unfold zlen. lia. Qed.

Lemma view_range f z : view f z <> ZEmpty -> 0 <= z < zlen (zones f).
Proof.
  unfold view. destruct (lget (zones f) z) eqn:E; [|easy]. intros _. now apply lget_range in E.
Qed.

Lemma view_out f z : ~ (0 <= z < zlen (zones f)) -> view f z = ZEmpty.
Proof. intros H. unfold view. now rewrite lget_none. Qed.

Lemma view_open_inv f z oz x : view f z = ZOpen oz x ->
  lget (zones f) z = Some x /\ zm_mem z (empties f) = false /\ zm_get z (opens f) = Some oz.
Proof.
  unfold view. destruct (lget (zones f) z) as [x'|] eqn:E; [|easy].
  destruct (zm_mem z (empties f)) eqn:M; [destruct (te x' =? 0); easy|].
  destruct (zm_get z (opens f)) eqn:O; [|easy]. now intros [= -> ->].
Qed.

Lemma view_closed_inv f z x : view f z = ZClosed x ->
  lget (zones f) z = Some x /\ zm_mem z (empties f) = false /\ zm_get z (opens f) = None.
Proof.
  unfold view. destruct (lget (zones f) z) as [x'|] eqn:E; [|easy].
  destruct (zm_mem z (empties f)) eqn:M; [destruct (te x' =? 0); easy|].
  destruct (zm_get z (opens f)) eqn:O; [easy|]. now intros [= ->].
Qed.

Lemma view_dead_inv f z s e : view f z = ZDead s e ->
  exists x, lget (zones f) z = Some x /\ zm_mem z (empties f) = true /\ ts x = s /\ te x = e /\ e <> 0.
Proof.
  unfold view. destruct (lget (zones f) z) as [x'|] eqn:E; [|easy].
  destruct (zm_mem z (empties f)) eqn:M.
  - destruct (Z.eqb_spec (te x') 0); [easy|]. intros [= <- <-]. eauto 10.
  - destruct (zm_get z (opens f)) eqn:O; easy.
Qed.

Lemma view_empty_inv f z : view f z = ZEmpty ->
  lget (zones f) z = None \/ exists x, lget (zones f) z = Some x /\ zm_mem z (empties f) = true /\ te x = 0.
Proof.
  unfold view. destruct (lget (zones f) z) as [x'|] eqn:E; [|now left].
  destruct (zm_mem z (empties f)) eqn:M.
  - destruct (Z.eqb_spec (te x') 0); [|easy]. right; eauto.
  - destruct (zm_get z (opens f)) eqn:O; easy.
Qed.

(** The predicates of the code, in terms of the view (for zone numbers, i.e.
    non-negative integers). *)
Lemma is_empty_view f z : rep f -> 0 <= z ->
  is_empty f z = match view f z with ZEmpty => true | _ => false end.
Proof.
  intros R Hz. unfold is_empty, te_of.
  destruct (Z.geb_spec z (zlen (zones f))).
  - cbn [orb]. now rewrite view_out by lia.
  - destruct (lget_some (zones f) z) as [x E]; [lia|].
    cbn [orb]. unfold view. rewrite E.
    destruct (zm_mem z (empties f)) eqn:M; cbn [andb].
    + now destruct (te x =? 0).
    + now destruct (zm_get z (opens f)).
Qed.

Lemma is_dead_view f z : rep f -> 0 <= z ->
  is_dead f z = match view f z with ZDead _ _ => true | _ => false end.
Proof.
  intros R Hz. unfold is_dead, te_of.
  destruct (Z.ltb_spec z (zlen (zones f))).
  - destruct (lget_some (zones f) z) as [x E]; [lia|].
    cbn [andb]. unfold view. rewrite E.
    destruct (zm_mem z (empties f)) eqn:M; cbn [andb].
    + pose proof (r_te f R z x M E).
      destruct (Z.eqb_spec (te x) 0), (Z.gtb_spec (te x) 0); try reflexivity; lia.
    + now destruct (zm_get z (opens f)).
  - cbn [andb]. now rewrite view_out by lia.
Qed.

Lemma is_closed_view f z : rep f -> 0 <= z ->
  is_closed f z = match view f z with ZClosed _ => true | _ => false end.
Proof.
  intros R Hz. unfold is_closed.
  destruct (Z.ltb_spec z (zlen (zones f))).
  - destruct (lget_some (zones f) z) as [x E]; [lia|].
    cbn [andb]. unfold view. rewrite E. unfold zm_mem at 2.
    destruct (zm_mem z (empties f)) eqn:M; cbn [andb negb].
    + now destruct (te x =? 0).
    + now destruct (zm_get z (opens f)).
  - cbn [andb]. now rewrite view_out by lia.
Qed.

Lemma is_open_view f z : rep f ->
  zm_mem z (opens f) = match view f z with ZOpen _ _ => true | _ => false end.
Proof.
  intros R. destruct (zm_mem z (opens f)) eqn:M.
  - pose proof (r_orange f R z M) as Hr. destruct (lget_some (zones f) z Hr) as [x E].
    unfold view. rewrite E.
    destruct (zm_mem z (empties f)) eqn:Me; [exfalso; now apply (r_disj f R z)|].
    apply zm_mem_get in M. destruct M as [oz ->]. reflexivity.
  - destruct (view f z) eqn:V; try reflexivity.
    apply view_open_inv in V. destruct V as (_ & _ & G). unfold zm_mem in M. now rewrite G in M.
Qed.

Lemma allocated_view f z : rep f -> 0 <= z < zlen (zones f) -> allocated f z = Some (alloc_v (view f z)).
Proof.
  intros R Hz. unfold allocated. destruct (lget_some (zones f) z Hz) as [x E].
  unfold view. rewrite E.
  destruct (zm_mem z (empties f)) eqn:M.
  - destruct (zm_get z (opens f)) eqn:G.
    + exfalso. apply (r_disj f R z M). unfold zm_mem. now rewrite G.
    + now destruct (te x =? 0).
  - destruct (zm_get z (opens f)); reflexivity.
Qed.

Lemma zod_of_view f z : rep f -> 0 <= z -> zod_of f z = Some (zod_v (view f z)).
Proof.
  intros R Hz. unfold zod_of. rewrite is_dead_view, is_empty_view by auto.
  destruct (view f z) eqn:V; cbn [obind orb]; try reflexivity.
  - apply view_dead_inv in V. destruct V as (x & -> & _ & <- & <- & _). reflexivity.
  - apply view_open_inv in V. destruct V as (-> & _ & G). cbn [obind]. now rewrite G.
  - apply view_closed_inv in V. destruct V as (-> & _ & G). cbn [obind]. now rewrite G.
Qed.

Lemma in_use_view f z : rep f -> 0 <= z -> 0 <= use_v (view f z) -> in_use f z = Some (use_v (view f z)).
Proof.
  intros R Hz U. unfold in_use. rewrite is_dead_view, is_empty_view by auto.
  destruct (view f z) eqn:V; cbn [obind orb]; try reflexivity.
  - apply view_open_inv in V. destruct V as (-> & _ & G). rewrite G. cbn [obind use_v] in *.
    unfold oassert. destruct (Z.leb_spec (freed x) (oalloc oz)); [reflexivity|lia].
  - apply view_closed_inv in V. destruct V as (-> & _ & G). rewrite G. cbn [obind use_v] in *.
    unfold oassert. destruct (Z.leb_spec (freed x) (total x)); [reflexivity|lia].
Qed.

Lemma omap_ok {A B} (g : A -> option B) (h : A -> B) l :
  (forall x, In x l -> g x = Some (h x)) -> omap g l = Some (map h l).
Proof.
  induction l as [|x l IH]; intros H; [reflexivity|].
  cbn [omap map]. rewrite H by now left. cbn [obind]. rewrite IH by (intros; apply H; now right). reflexivity.
Qed.

Lemma osum_ok (g : Z -> option Z) (h : Z -> Z) l :
  (forall x, In x l -> g x = Some (h x)) -> osum g l = Some (fold_right (fun z a => h z + a) 0 l).
Proof.
  induction l as [|x l IH]; intros H; [reflexivity|].
  cbn [osum fold_right]. rewrite H by now left. cbn [obind]. rewrite IH by (intros; apply H; now right). reflexivity.
Qed.

Lemma sum_views f (g : zview -> Z) : rep f -> g ZEmpty = 0 ->
  zsum 0 (zlen (zones f)) (fun z => g (view f z)) = zsum 0 (total_zones f) (fun z => g (view f z)).
Proof.
  intros R G. pose proof (r_len f R). pose proof (zlen_nonneg' (zones f)).
  rewrite (zsum_split 0 (zlen (zones f)) (total_zones f)) by lia.
  rewrite (zsum_zero (zlen (zones f))); [lia|]. intros z Hz. now rewrite view_out by lia.
Qed.

Lemma allocated_total_view f : rep f ->
  allocated_total f = Some (zsum 0 (total_zones f) (fun z => alloc_v (view f z))).
Proof.
  intros R. unfold allocated_total. rewrite (osum_ok _ (fun z => alloc_v (view f z))).
  - f_equal. now apply (sum_views f alloc_v).
  - intros z Hz. apply in_zrange in Hz. now apply allocated_view.
Qed.

Lemma in_use_total_view f : rep f -> (forall z, 0 <= z < total_zones f -> 0 <= use_v (view f z)) ->
  in_use_total f = Some (zsum 0 (total_zones f) (fun z => use_v (view f z))).
Proof.
  intros R U. unfold in_use_total. rewrite (osum_ok _ (fun z => use_v (view f z))).
  - f_equal. now apply (sum_views f use_v).
  - intros z Hz. apply in_zrange in Hz. pose proof (r_len f R). apply in_use_view; auto; [lia|].
    apply U. lia.
Qed.

Lemma block_of_view f b : rep f -> 0 <= b ->
  block_of f b = Some (map (fun z => zod_v (view f z)) (zrange (b * ZPL) (Z.min ((b + 1) * ZPL) (total_zones f)))).
Proof.
  intros R Hb. unfold block_of. apply omap_ok. intros z Hz. apply in_zrange in Hz.
  apply zod_of_view; auto. unfold ZPL in *. lia.
Qed.

(** A zone number below the total has a valid spacemap block. *)
Lemma block_valid z n : 0 <= z < n -> 0 <= z / ZPL < spacemap_space n.
Proof.
  unfold spacemap_space, ZPL. intros H.
  pose proof (Z.div_mod z 255 ltac:(lia)). pose proof (Z.mod_pos_bound z 255 ltac:(lia)).
  pose proof (Z.div_mod (n + 255 - 1) 255 ltac:(lia)). pose proof (Z.mod_pos_bound (n + 255 - 1) 255 ltac:(lia)).
  lia.
Qed.

Lemma dirty_zone_ok f z : 0 <= z < total_zones f ->
  dirty_zone z f = Some (set_dirty (fun b => (b =? z / ZPL) || dirty f b) f).
Proof.
  intros H. unfold dirty_zone, oassert. pose proof (block_valid z _ H).
  destruct (Z.ltb_spec (z / ZPL) (spacemap_space (total_zones f))); [reflexivity|lia].
Qed.

Lemma rep_set_dirty d f : rep f -> rep (set_dirty d f).
Proof. intros []. now split. Qed.

Lemma view_set_dirty d f z : view (set_dirty d f) z = view f z.
Proof. reflexivity. Qed.

(** Replacing the record of a zone that stays open or closed. *)
Lemma rep_set_zone f z x : rep f -> 0 <= z < zlen (zones f) -> zm_mem z (empties f) = false \/ 0 <= te x ->
  rep (set_zones (lset (zones f) z x) f).
Proof.
  intros [] Hz Hx. split; cbn [set_zones empties opens zones total_zones] in *; auto.
  - intros j Hj. rewrite lset_len. auto.
  - intros j Hj. rewrite lset_len. auto.
  - now rewrite lset_len.
  - intros j y Hj. rewrite lget_lset by auto. destruct (Z.eqb_spec j z) as [->|].
    + intros [= <-]. destruct Hx; [congruence|auto].
    + eauto.
Qed.

Lemma view_set_zone f z x j : 0 <= z < zlen (zones f) ->
  view (set_zones (lset (zones f) z x) f) j =
  if j =? z then
    (if zm_mem z (empties f) then (if te x =? 0 then ZEmpty else ZDead (ts x) (te x))
     else match zm_get z (opens f) with Some oz => ZOpen oz x | None => ZClosed x end)
  else view f j.
Proof.
  intros Hz. unfold view. cbn [set_zones zones empties opens]. rewrite lget_lset by auto.
  destruct (Z.eqb_spec j z) as [->|]; reflexivity.
Qed.

(** * The operations *)

Lemma kill_spec f z x : rep f -> view f z = ZClosed x ->
  exists f', kill_zone z f = Some (f', total x) /\ changes f f' z (ZDead 0 1).
Proof.
  intros R V. pose proof (view_closed_inv f z x V) as (E & M & G).
  pose proof (lget_range _ _ _ E) as Hz. pose proof (r_len f R) as Hl.
  unfold kill_zone. rewrite dirty_zone_ok by lia. cbn [obind].
  set (f1 := set_dirty _ f).
  assert (R1 : rep f1) by now apply rep_set_dirty.
  unfold oassert, is_open. rewrite is_open_view by auto.
  change (view f1 z) with (view f z). rewrite V. cbn [negb].
  change (zones f1) with (zones f).
  destruct (Z.ltb_spec z (zlen (zones f))); [|lia].
  rewrite allocated_view by auto. change (view f1 z) with (view f z). rewrite V. cbn [obind alloc_v].
  cbn [set_empties zones]. change (zones f1) with (zones f). rewrite E. cbn [obind].
  eexists. split; [reflexivity|].
  destruct R as [Ro1 Ro2 Ro3 Ro4 Ro5 Ro6 Ro7].
  split.
  - split; cbn [set_zones set_empties set_dirty f1 empties opens zones total_zones]; rewrite ?lset_len; auto.
    + now apply zm_ok_set.
    + intros j. rewrite zm_mem_set by auto. destruct (Z.eqb_spec j z); [subst; auto|auto].
    + intros j. rewrite zm_mem_set by auto. destruct (Z.eqb_spec j z) as [->|]; [|cbn; eauto].
      intros _ X. unfold zm_mem in X. now rewrite G in X.
    + intros j y. rewrite zm_mem_set by auto. rewrite lget_lset by auto.
      destruct (Z.eqb_spec j z); [intros _ [= <-]; cbn; lia|cbn; eauto].
  - reflexivity.
  - unfold view. cbn [set_zones set_empties set_dirty f1 empties opens zones total_zones].
    rewrite lget_lset, zm_mem_set, Z.eqb_refl by auto. reflexivity.
  - intros j Hj. unfold view. cbn [set_zones set_empties set_dirty f1 empties opens zones total_zones].
    rewrite lget_lset, zm_mem_set by auto. destruct (Z.eqb_spec j z); [contradiction|reflexivity].
  - reflexivity.
Qed.

Lemma finish_spec f z txg oz x : rep f -> view f z = ZOpen oz x -> oalloc oz <= total x -> total x - oalloc oz < 2^32 ->
  exists f', finish_zone z txg f = Some (f', total x - oalloc oz) /\
    changes f f' z (ZClosed (mkzone (freed x + (total x - oalloc oz)) (total x) (ts x) (txg + 1))).
Proof.
  intros R V Ha Hb. pose proof (view_open_inv f z oz x V) as (E & M & G).
  pose proof (lget_range _ _ _ E) as Hz. pose proof (r_len f R) as Hl.
  unfold finish_zone. rewrite dirty_zone_ok by lia. cbn [obind].
  set (f1 := set_dirty _ f).
  unfold available. change (opens f1) with (opens f). rewrite G.
  change (zones f1) with (zones f). rewrite E. cbn [obind]. unfold oassert.
  destruct (Z.leb_spec (oalloc oz) (total x)); [|lia]. cbn [obind].
  unfold zm_mem. rewrite G. cbn [set_opens zones]. change (zones f1) with (zones f). rewrite E. cbn [obind].
  unfold u32. rewrite Z.mod_small by lia.
  eexists. split; [reflexivity|].
  destruct R as [Ro1 Ro2 Ro3 Ro4 Ro5 Ro6 Ro7].
  split.
  - split; cbn [set_zones set_opens set_dirty f1 empties opens zones total_zones]; rewrite ?lset_len; auto.
    + now apply zm_ok_del.
    + intros j. rewrite zm_mem_del by auto. destruct (Z.eqb_spec j z); [cbn; easy|cbn; auto].
    + intros j Hj. rewrite zm_mem_del by auto. destruct (Z.eqb_spec j z); [cbn; easy|cbn; eauto].
    + intros j y Hj. rewrite lget_lset by auto.
      destruct (Z.eqb_spec j z); [subst; congruence|eauto].
  - reflexivity.
  - unfold view. cbn [set_zones set_opens set_dirty f1 empties opens zones total_zones].
    rewrite lget_lset, zm_get_del, Z.eqb_refl by auto. now rewrite M.
  - intros j Hj. unfold view. cbn [set_zones set_opens set_dirty f1 empties opens zones total_zones].
    rewrite lget_lset, zm_get_del by auto. destruct (Z.eqb_spec j z); [contradiction|reflexivity].
  - reflexivity.
Qed.

Definition free_v (len : Z) (w : zview) : zview :=
  match w with
  | ZOpen oz x => ZOpen oz (mkzone (freed x + len) (total x) (ts x) (te x))
  | ZClosed x => ZClosed (mkzone (freed x + len) (total x) (ts x) (te x))
  | _ => w
  end.

Lemma free_spec f z len : rep f ->
  match view f z with
  | ZOpen oz x => freed x + len <= oalloc oz /\ oalloc oz <= total x
  | ZClosed x => freed x + len <= total x
  | _ => False
  end -> len < 2^32 ->
  exists f', fsm_free z len f = Some f' /\ changes f f' z (free_v len (view f z)).
Proof.
  intros R H Hlen.
  assert (exists x, lget (zones f) z = Some x /\ zm_mem z (empties f) = false /\
           view f z = match zm_get z (opens f) with Some oz => ZOpen oz x | None => ZClosed x end) as (x & E & M & VV).
  { destruct (view f z) eqn:V; try contradiction.
    - apply view_open_inv in V. destruct V as (E & M & G). exists x. rewrite G. auto.
    - apply view_closed_inv in V. destruct V as (E & M & G). exists x. rewrite G. auto. }
  pose proof (lget_range _ _ _ E) as Hz. pose proof (r_len f R) as Hl.
  unfold fsm_free. rewrite dirty_zone_ok by lia. cbn [obind].
  set (f1 := set_dirty _ f).
  assert (R1 : rep f1) by now apply rep_set_dirty.
  rewrite is_empty_view by (auto; lia). change (view f1 z) with (view f z).
  change (zones f1) with (zones f). rewrite E. cbn [obind]. change (opens f1) with (opens f).
  unfold oassert. cbn [freed total].
  rewrite VV in H |- *.
  destruct (Z.ltb_spec len (2^32)); [|lia].
  assert (Hg : freed x + len <= total x) by (destruct (zm_get z (opens f)); lia).
  destruct (Z.leb_spec (freed x + len) (total x)); [|lia].
  assert (Hg2 : match zm_get z (opens f) with Some oz => freed x + len <=? oalloc oz | None => true end = true).
  { destruct (zm_get z (opens f)); [lia|reflexivity]. }
  rewrite Hg2.
  assert (Hne : match (match zm_get z (opens f) with Some oz => ZOpen oz x | None => ZClosed x end) with ZEmpty => true | _ => false end = false)
    by now destruct (zm_get z (opens f)).
  rewrite Hne. cbn [negb].
  eexists. split; [reflexivity|].
  change (zones f) with (zones f1).
  split.
  - apply rep_set_zone; auto.
  - reflexivity.
  - rewrite view_set_zone, Z.eqb_refl by auto. change (empties f1) with (empties f). rewrite M.
    change (opens f1) with (opens f). now destruct (zm_get z (opens f)).
  - intros j Hj. rewrite view_set_zone by auto. destruct (Z.eqb_spec j z); [contradiction|reflexivity].
  - reflexivity.
Qed.

(** Allocating in, or wasting, the tail of an open zone. *)
Lemma waste_spec f z space oz x : rep f -> view f z = ZOpen oz x ->
  oalloc oz + space <= total x -> 0 <= space < 2^32 ->
  exists f', waste_space z space f = Some f' /\
    changes f f' z (ZOpen (mkoz (ostart oz) (oalloc oz + space)) (mkzone (freed x + space) (total x) (ts x) (te x))).
Proof.
  intros R V Ha Hs. pose proof (view_open_inv f z oz x V) as (E & M & G).
  pose proof (lget_range _ _ _ E) as Hz. pose proof (r_len f R) as Hl.
  unfold waste_space. rewrite dirty_zone_ok by lia. cbn [obind].
  set (f1 := set_dirty _ f). change (opens f1) with (opens f). rewrite G. cbn [obind].
  cbn [set_opens zones]. change (zones f1) with (zones f). rewrite E. cbn [obind oalloc total].
  unfold u32. rewrite Z.mod_small by lia. unfold oassert.
  destruct (Z.leb_spec (oalloc oz + space) (total x)); [|lia].
  eexists. split; [reflexivity|].
  destruct R as [Ro1 Ro2 Ro3 Ro4 Ro5 Ro6 Ro7].
  split.
  - split; cbn [set_zones set_opens set_dirty f1 empties opens zones total_zones]; rewrite ?lset_len; auto.
    + now apply zm_ok_set.
    + intros j. rewrite zm_mem_set by auto. destruct (Z.eqb_spec j z); [subst; auto|auto].
    + intros j Hj. rewrite zm_mem_set by auto. destruct (Z.eqb_spec j z); [subst; congruence|cbn; eauto].
    + intros j y Hj. rewrite lget_lset by auto.
      destruct (Z.eqb_spec j z); [subst; congruence|eauto].
  - reflexivity.
  - unfold view. cbn [set_zones set_opens set_dirty f1 empties opens zones total_zones].
    rewrite lget_lset, zm_get_set, Z.eqb_refl by auto. now rewrite M.
  - intros j Hj. unfold view. cbn [set_zones set_opens set_dirty f1 empties opens zones total_zones].
    rewrite lget_lset, zm_get_set by auto. destruct (Z.eqb_spec j z); [contradiction|reflexivity].
  - reflexivity.
Qed.

(** At most one zone is open. *)
Definition one_open (f : fsm) : Prop :=
  forall z z' oz x oz' x', view f z = ZOpen oz x -> view f z' = ZOpen oz' x' -> z = z'.

Lemma opens_nil f : rep f -> (forall z oz x, view f z <> ZOpen oz x) -> opens f = [].
Proof.
  intros R H. destruct (opens f) as [|[z oz] r] eqn:E; [reflexivity|exfalso].
  assert (M : zm_mem z (opens f) = true) by (unfold zm_mem; rewrite E; cbn; now rewrite Z.eqb_refl).
  rewrite is_open_view in M by auto. destruct (view f z) eqn:V; try easy. now apply (H z oz0 x).
Qed.

Lemma opens_one f z oz x : rep f -> one_open f -> view f z = ZOpen oz x -> opens f = [(z, oz)].
Proof.
  intros R O V. pose proof (view_open_inv f z oz x V) as (E & M & G).
  apply zm_ext; [apply R| apply zm_ok_cons; split; [apply zm_ok_nil|constructor]|].
  intros k. cbn [zm_get]. destruct (Z.eqb_spec k z) as [->|N]; [exact G|].
  destruct (zm_get k (opens f)) eqn:K; [exfalso|reflexivity].
  assert (Mk : zm_mem k (opens f) = true) by (unfold zm_mem; now rewrite K).
  rewrite is_open_view in Mk by auto. destruct (view f k) eqn:Vk; try easy.
  apply N. eapply O; eauto.
Qed.

Lemma open_case f : rep f -> one_open f ->
  (opens f = [] /\ forall z oz x, view f z <> ZOpen oz x) \/
  (exists z oz x, view f z = ZOpen oz x /\ opens f = [(z, oz)]).
Proof.
  intros R O. destruct (opens f) as [|[z oz] r] eqn:E.
  - left. split; [reflexivity|]. intros z oz x V. apply view_open_inv in V. destruct V as (_ & _ & G).
    rewrite E in G. discriminate.
  - right. assert (M : zm_mem z (opens f) = true) by (unfold zm_mem; rewrite E; cbn; now rewrite Z.eqb_refl).
    rewrite is_open_view in M by auto. destruct (view f z) eqn:V; try easy.
    exists z, oz0, x. split; [exact V|]. rewrite <- E. eapply opens_one; eauto.
Qed.

Lemma try_allocate_none f space : rep f -> opens f = [] -> try_allocate space f = Some (f, None, []).
Proof. intros R H. unfold try_allocate. rewrite H. reflexivity. Qed.

Lemma try_allocate_full f space z oz x : rep f -> one_open f -> view f z = ZOpen oz x ->
  oalloc oz <= total x -> space < 2^32 -> total x - oalloc oz < space ->
  try_allocate space f = Some (f, None, [z]).
Proof.
  intros R O V Ha Hs Hf. unfold try_allocate. rewrite (opens_one f z oz x) by auto.
  pose proof (view_open_inv f z oz x V) as (E & M & G).
  unfold oassert. destruct (Z.ltb_spec space (2^32)); [|lia].
  cbn [find_open]. rewrite E. cbn [obind]. unfold oassert.
  destruct (Z.leb_spec (oalloc oz) (total x)); [|lia].
  destruct (Z.ltb_spec (total x - oalloc oz) space); [|lia]. reflexivity.
Qed.

Lemma try_allocate_ok f space z oz x : rep f -> one_open f -> view f z = ZOpen oz x ->
  oalloc oz + space <= total x -> 0 <= space < 2^32 ->
  exists f', try_allocate space f = Some (f', Some (z, ostart oz + oalloc oz), []) /\
    changes f f' z (ZOpen (mkoz (ostart oz) (oalloc oz + space)) x).
Proof.
  intros R O V Ha Hs. unfold try_allocate. rewrite (opens_one f z oz x) by auto.
  pose proof (view_open_inv f z oz x V) as (E & M & G).
  pose proof (lget_range _ _ _ E) as Hz. pose proof (r_len f R) as Hl.
  unfold oassert. destruct (Z.ltb_spec space (2^32)); [|lia].
  cbn [find_open]. rewrite E. cbn [obind]. unfold oassert.
  destruct (Z.leb_spec (oalloc oz) (total x)); [|lia].
  destruct (Z.ltb_spec (total x - oalloc oz) space); [lia|]. cbn [obind fst snd].
  cbn [zm_get]. rewrite Z.eqb_refl. cbn [obind].
  rewrite dirty_zone_ok by (cbn [set_opens total_zones]; lia). cbn [obind].
  eexists. split; [reflexivity|]. unfold u32. rewrite Z.mod_small by lia.
  cbn [zm_set]. rewrite Z.ltb_irrefl, Z.eqb_refl.
  assert (Ho : opens f = [(z, oz)]) by (eapply opens_one; eauto).
  assert (K1 : forall j, zm_get j [(z, mkoz (ostart oz) (oalloc oz + space))] =
                 if j =? z then Some (mkoz (ostart oz) (oalloc oz + space)) else zm_get j (opens f)).
  { intros j. rewrite Ho. cbn [zm_get]. now destruct (j =? z). }
  assert (K2 : forall j, zm_mem j [(z, mkoz (ostart oz) (oalloc oz + space))] = zm_mem j (opens f)).
  { intros j. unfold zm_mem. rewrite K1. destruct (Z.eqb_spec j z); [subst; now rewrite G|reflexivity]. }
  destruct R as [Ro1 Ro2 Ro3 Ro4 Ro5 Ro6 Ro7].
  split.
  - split; cbn [set_zones set_opens set_dirty empties opens zones total_zones]; auto.
    + apply zm_ok_cons; split; [apply zm_ok_nil|constructor].
    + intros j. rewrite K2. auto.
    + intros j. rewrite K2. eauto.
  - reflexivity.
  - unfold view. cbn [set_zones set_opens set_dirty empties opens zones total_zones].
    rewrite E, M, K1, Z.eqb_refl. reflexivity.
  - intros j Hj. unfold view. cbn [set_zones set_opens set_dirty empties opens zones total_zones].
    rewrite K1. destruct (Z.eqb_spec j z); [contradiction|reflexivity].
  - reflexivity.
Qed.

Lemma add_empties_ok l e : zm_ok e -> zm_ok (add_empties l e).
Proof. unfold add_empties. revert e; induction l as [|z l IH]; intros e H; [exact H|]. cbn. apply IH. now apply zm_ok_set. Qed.

Lemma add_empties_mem l e z : zm_ok e -> zm_mem z (add_empties l e) = existsb (Z.eqb z) l || zm_mem z e.
Proof.
  unfold add_empties. revert e; induction l as [|y l IH]; intros e H; [reflexivity|].
  cbn [fold_left existsb]. rewrite IH by now apply zm_ok_set. rewrite zm_mem_set by auto.
  destruct (z =? y), (existsb (Z.eqb z) l); reflexivity.
Qed.

Lemma existsb_zrange z lo hi : existsb (Z.eqb z) (zrange lo hi) = (lo <=? z) && (z <? hi).
Proof.
  destruct ((lo <=? z) && (z <? hi)) eqn:E.
  - apply existsb_exists. exists z. split; [apply in_zrange; lia|apply Z.eqb_refl].
  - destruct (existsb (Z.eqb z) (zrange lo hi)) eqn:X; [|reflexivity].
    apply existsb_exists in X. destruct X as (y & Hy & Ey). apply in_zrange in Hy. lia.
Qed.

Lemma open_zone_nospace f z start end_ lbas txg : rep f -> 0 <= z < total_zones f -> view f z = ZEmpty ->
  txg <= TXG_MAX -> end_ - start < lbas ->
  exists f', open_zone z start end_ lbas txg f = Some (f', OzNoSpace) /\ changes f f' z ZEmpty.
Proof.
  intros R Hz V Ht Hs. unfold open_zone, oassert. destruct (Z.leb_spec txg TXG_MAX); [|lia].
  rewrite dirty_zone_ok by lia. cbn [obind].
  assert (R1 : rep (set_dirty (fun b => (b =? z / ZPL) || dirty f b) f)) by now apply rep_set_dirty.
  rewrite is_empty_view by (auto; lia). rewrite view_set_dirty, V.
  destruct (Z.ltb_spec (end_ - start) lbas); [|lia].
  eexists. split; [reflexivity|]. split; auto.
Qed.

Lemma open_zone_spec f z start end_ lbas txg : rep f -> 0 <= z < total_zones f -> view f z = ZEmpty ->
  txg <= TXG_MAX -> 0 <= lbas <= end_ - start -> end_ - start < 2^32 ->
  exists f', open_zone z start end_ lbas txg f = Some (f', OzOk (if lbas >? 0 then Some (z, start) else None)) /\
    changes f f' z (ZOpen (mkoz start lbas) (mkzone 0 (end_ - start) txg TXG_MAX)).
Proof.
  intros R Hz V Ht Hs Hb. unfold open_zone, oassert. destruct (Z.leb_spec txg TXG_MAX); [|lia].
  rewrite dirty_zone_ok by lia. cbn [obind].
  set (f1 := set_dirty _ f).
  assert (R1 : rep f1) by now apply rep_set_dirty.
  rewrite is_empty_view by (auto; lia). change (view f1 z) with (view f z). rewrite V.
  destruct (Z.ltb_spec (end_ - start) lbas); [lia|].
  change (zones f1) with (zones f). change (empties f1) with (empties f).
  assert (Hmiss : forallb (fun j => negb (zm_mem j (empties f))) (zrange (zlen (zones f)) z) = true).
  { apply forallb_forall. intros j Hj. apply in_zrange in Hj.
    destruct (zm_mem j (empties f)) eqn:M; [|reflexivity]. apply (r_erange f R) in M. lia. }
  rewrite Hmiss. cbn [set_empties set_zones zones empties opens].
  change (opens f1) with (opens f). change (zones f1) with (zones f).
  set (zs := zones f ++ repeat zdefault (Z.to_nat (z + 1 - zlen (zones f)))).
  pose proof (zlen_nonneg' (zones f)) as Hnn.
  assert (Hlen : zlen zs = Z.max (zlen (zones f)) (z + 1)).
  { unfold zs, zlen. rewrite app_length, repeat_length. unfold zlen in *. lia. }
  destruct (lget_some zs z) as [x0 E0]; [lia|]. rewrite E0. cbn [obind].
  assert (Hno : zm_mem z (opens f) = false).
  { rewrite is_open_view by auto. now rewrite V. }
  rewrite Hno. cbn [negb]. unfold u32. rewrite !Z.mod_small by lia.
  eexists. split; [reflexivity|].
  set (es := add_empties (zrange (zlen (zones f)) z) (empties f)).
  assert (Oes : zm_ok es) by (apply add_empties_ok; apply R).
  assert (Mes : forall j, zm_mem j es = (zlen (zones f) <=? j) && (j <? z) || zm_mem j (empties f)).
  { intros j. unfold es. rewrite add_empties_mem by apply R. now rewrite existsb_zrange. }
  assert (Gzs : forall j, lget zs j = if j <? zlen (zones f) then lget (zones f) j
                                     else if j <=? z then Some zdefault else None).
  { intros j. unfold zs. rewrite lget_app. destruct (Z.ltb_spec j (zlen (zones f))); [reflexivity|].
    destruct (Z.leb_spec j z).
    - apply lget_repeat. lia.
    - apply lget_none. unfold zlen in *. rewrite repeat_length. lia. }
  destruct R as [Ro1 Ro2 Ro3 Ro4 Ro5 Ro6 Ro7].
  split.
  - split; cbn [set_opens set_zones set_empties set_dirty f1 empties opens zones total_zones]; rewrite ?lset_len.
    + now apply zm_ok_del.
    + now apply zm_ok_set.
    + intros j. rewrite zm_mem_del, Mes by auto. intros X.
      destruct (Z.eqb_spec j z); [easy|]. cbn [negb andb] in X.
      destruct (zm_mem j (empties f)) eqn:Mj; [apply Ro3 in Mj; lia|]. lia.
    + intros j. rewrite zm_mem_set by auto. intros X. destruct (Z.eqb_spec j z); [lia|].
      cbn [orb] in X. apply Ro4 in X. lia.
    + intros j. rewrite zm_mem_del, zm_mem_set, Mes by auto. destruct (Z.eqb_spec j z); [easy|].
      cbn [negb andb orb]. intros X Y.
      destruct (zm_mem j (empties f)) eqn:Mj; [eauto|]. apply Ro4 in Y. lia.
    + lia.
    + intros j y. rewrite zm_mem_del, Mes by auto. rewrite lget_lset by lia.
      destruct (Z.eqb_spec j z); [easy|]. cbn [negb andb]. intros X. rewrite Gzs.
      destruct (Z.ltb_spec j (zlen (zones f))).
      * destruct (zm_mem j (empties f)) eqn:Mj; [eauto|]. lia.
      * destruct (j <=? z); [intros [= <-]; cbn; lia|discriminate].
  - reflexivity.
  - unfold view. cbn [set_opens set_zones set_empties set_dirty f1 empties opens zones total_zones].
    rewrite lget_lset, Z.eqb_refl, zm_mem_del, Z.eqb_refl by (auto; lia). cbn [negb andb].
    rewrite zm_get_set, Z.eqb_refl by auto. reflexivity.
  - intros j Hj. unfold view. cbn [set_opens set_zones set_empties set_dirty f1 empties opens zones total_zones].
    rewrite lget_lset by lia. rewrite zm_mem_del, zm_get_set by auto.
    destruct (Z.eqb_spec j z); [contradiction|]. cbn [negb andb]. rewrite Gzs, Mes.
    destruct (Z.ltb_spec j (zlen (zones f))).
    + destruct (Z.leb_spec (zlen (zones f)) j); [lia|]. reflexivity.
    + rewrite (lget_none (zones f)) by lia. destruct (Z.leb_spec j z); [|reflexivity].
      destruct (Z.leb_spec (zlen (zones f)) j); [|lia]. destruct (Z.ltb_spec j z); [reflexivity|lia].
  - reflexivity.
Qed.

Lemma find_empty_spec f : rep f ->
  match find_empty f with
  | Some z => 0 <= z < total_zones f /\ view f z = ZEmpty
  | None => forall z, 0 <= z < total_zones f -> view f z <> ZEmpty
  end.
Proof.
  intros R. unfold find_empty.
  destruct (find _ (empties f)) as [[z u]|] eqn:F.
  - apply find_some in F. destruct F as [Hin Ht]. cbn [fst] in *.
    assert (M : zm_mem z (empties f) = true).
    { unfold zm_mem. rewrite (zm_in_get z u) by (auto; apply R). reflexivity. }
    pose proof (r_erange f R z M). pose proof (r_len f R).
    split; [lia|]. unfold te_of in Ht. unfold view. destruct (lget_some (zones f) z) as [x E]; [lia|].
    rewrite E in *. rewrite M. now rewrite Ht.
  - pose proof (zlen_nonneg' (zones f)).
    destruct (Z.ltb_spec (zlen (zones f)) (total_zones f)).
    + split; [lia|]. apply view_out. lia.
    + pose proof (r_len f R). intros z Hz V. apply view_empty_inv in V. destruct V as [V|(x & E & M & T)].
      * destruct (lget_some (zones f) z); [lia|congruence].
      * apply zm_mem_in in M. destruct M as [u Hu].
        apply (find_none _ _ F) in Hu. cbn [fst] in Hu. unfold te_of in Hu. rewrite E, T in Hu. discriminate.
Qed.

(** * Reaping *)

Lemma reap_one_spec f z : rep f -> is_dead f z = true -> 0 <= z -> 
  changes f (reap_one f z) z ZEmpty /\ zlen (zones (reap_one f z)) = zlen (zones f) /\
  empties (reap_one f z) = empties f /\ opens (reap_one f z) = opens f.
Proof.
  intros R D Hz0. rewrite is_dead_view in D by auto. destruct (view f z) eqn:V; try easy.
  apply view_dead_inv in V. destruct V as (x & E & M & T1 & T2 & N).
  pose proof (lget_range _ _ _ E) as Hz.
  unfold reap_one. rewrite E. set (x' := mkzone _ _ _ _).
  assert (R' : rep (set_zones (lset (zones f) z x') f)) by (apply rep_set_zone; auto; right; cbn; lia).
  split; [split|].
  - now apply rep_set_dirty.
  - reflexivity.
  - rewrite view_set_dirty, view_set_zone, Z.eqb_refl by auto. now rewrite M.
  - intros j Hj. rewrite view_set_dirty, view_set_zone by auto. destruct (Z.eqb_spec j z); [contradiction|reflexivity].
  - reflexivity.
  - cbn [set_dirty set_zones zones empties opens]. rewrite lset_len. auto.
Qed.

Lemma reap_fold l : forall f, rep f -> NoDup l -> (forall z, In z l -> is_dead f z = true /\ 0 <= z) ->
  let f' := fold_left reap_one l f in
  rep f' /\ total_zones f' = total_zones f /\ zlen (zones f') = zlen (zones f) /\
  empties f' = empties f /\ opens f' = opens f /\
  (forall z, In z l -> view f' z = ZEmpty) /\ (forall z, ~ In z l -> view f' z = view f z) /\
  (forall b, dirty f' b = existsb (fun z => b =? z / ZPL) l || dirty f b).
Proof.
  induction l as [|z l IH]; intros f R ND H.
  - cbn [fold_left existsb orb In]. split; [exact R|]. do 4 (split; [reflexivity|]). split; [easy|]. split; reflexivity.
  - cbn [fold_left]. inversion ND; subst.
    destruct (H z) as [Dz Hz]; [now left|].
    destruct (reap_one_spec f z R Dz Hz) as (C & L1 & L2 & L3).
    destruct C as [R' T A O Di].
    assert (H' : forall y, In y l -> is_dead (reap_one f z) y = true /\ 0 <= y).
    { intros y Hy. destruct (H y) as [Dy Hy0]; [now right|]. split; [|auto].
      rewrite is_dead_view in * by auto. rewrite O; [exact Dy|]. intros ->. contradiction. }
    specialize (IH (reap_one f z) R' H3 H'). cbv zeta in IH.
    destruct IH as (I1 & I2 & I3 & I4 & I5 & I6 & I7 & I8). cbv zeta.
    split; [exact I1|]. split; [congruence|]. split; [congruence|]. split; [congruence|]. split; [congruence|].
    split; [|split].
    + intros y [->|Hy]; [|auto]. destruct (in_dec Z.eq_dec y l) as [Hi|Hi]; [auto|].
      rewrite I7 by auto. exact A.
    + intros y Hy. rewrite I7 by (intros X; apply Hy; now right). apply O. intros ->. apply Hy. now left.
    + intros b. rewrite I8, Di. cbn [existsb]. destruct (b =? z / ZPL), (existsb (fun z => b =? z / ZPL) l); reflexivity.
Qed.

Lemma last_nonempty_spec f : 
  0 <= last_nonempty f <= zlen (zones f) /\
  (forall z, last_nonempty f <= z < zlen (zones f) -> is_empty f z = true).
Proof.
  unfold last_nonempty. pose proof (zlen_nonneg' (zones f)) as Hn.
  set (g := fun a z => if is_empty f z then a else z + 1).
  assert (X : forall m : nat, Z.of_nat m <= zlen (zones f) ->
    0 <= fold_left g (zrange 0 (Z.of_nat m)) 0 <= Z.of_nat m /\
    (forall z, fold_left g (zrange 0 (Z.of_nat m)) 0 <= z < Z.of_nat m -> is_empty f z = true)).
  { induction m as [|m IH]; intros Hr.
    - rewrite zrange_empty by lia. cbn. split; [lia|]. intros; lia.
    - destruct IH as [I1 I2]; [lia|].
      rewrite zrange_snoc by lia. replace (Z.of_nat (S m) - 1) with (Z.of_nat m) by lia.
      rewrite fold_left_app. cbn [fold_left]. set (a := fold_left g (zrange 0 (Z.of_nat m)) 0) in *.
      unfold g. destruct (is_empty f (Z.of_nat m)) eqn:Em.
      + split; [lia|]. intros z Hz. destruct (Z.eq_dec z (Z.of_nat m)); [now subst|]. apply I2. lia.
      + split; [lia|]. intros z Hz. lia. }
  specialize (X (Z.to_nat (zlen (zones f)))). rewrite Z2Nat.id in X by lia. apply X. lia.
Qed.

Lemma ztake_lget {A} (l : list A) n i : 0 <= n <= zlen l -> lget (ztake n l) i = if i <? n then lget l i else None.
Proof.
  intros Hn. unfold lget, ztake, zlen in *. destruct (Z.ltb_spec i 0).
  - now destruct (i <? n).
  - destruct (Z.ltb_spec i n).
    + rewrite <- (firstn_skipn (Z.to_nat n) l) at 2. symmetry. apply nth_error_app1. rewrite firstn_length. lia.
    + apply nth_error_None. rewrite firstn_length. lia.
Qed.

Lemma sorted_NoDup l : StronglySorted Z.lt l -> NoDup l.
Proof.
  induction 1; constructor; auto. intros Hx. rewrite Forall_forall in H0. specialize (H0 a Hx). lia.
Qed.

Lemma reap_spec f : rep f ->
  let f' := fst (reap f) in let dead := snd (reap f) in
  rep f' /\ total_zones f' = total_zones f /\
  (forall z, In z dead <-> exists s e, view f z = ZDead s e) /\ NoDup dead /\
  (forall z, In z dead -> view f' z = ZEmpty) /\
  (forall z, ~ In z dead -> view f' z = view f z) /\
  (forall b, dirty f' b = existsb (fun z => b =? z / ZPL) dead || dirty f b).
Proof.
  intros R. unfold reap.
  set (dead := filter (is_dead f) (map fst (empties f))).
  assert (Hin0 : forall z, In z (map fst (empties f)) <-> zm_mem z (empties f) = true).
  { intros z. rewrite in_map_iff. split.
    - intros ([z' u] & <- & Hin). cbn [fst]. unfold zm_mem. now rewrite (zm_in_get z' u) by (auto; apply R).
    - intros M. apply zm_mem_in in M. destruct M as [u Hu]. exists (z, u). auto. }
  assert (ND : NoDup dead).
  { apply NoDup_filter. apply sorted_NoDup. apply R. }
  assert (Hd : forall z, In z dead <-> exists s e, view f z = ZDead s e).
  { intros z. unfold dead. rewrite filter_In, Hin0. split.
    - intros [M D]. pose proof (r_erange f R z M). rewrite is_dead_view in D by (auto; lia).
      destruct (view f z); try easy. eauto.
    - intros (s & e & V). pose proof (view_dead_inv f z s e V) as (x & E & M & _).
      split; [exact M|]. rewrite is_dead_view; [now rewrite V|auto|]. apply lget_range in E. lia. }
  assert (Hdd : forall z, In z dead -> is_dead f z = true /\ 0 <= z).
  { intros z Hz. pose proof Hz as Hz'. unfold dead in Hz'. apply filter_In in Hz'. destruct Hz' as [Hz1 Hz2].
    split; [auto|]. apply Hin0 in Hz1. apply (r_erange f R) in Hz1. lia. }
  pose proof (reap_fold dead f R ND Hdd) as F. cbv zeta in F.
  destruct F as (I1 & I2 & I3 & I4 & I5 & I6 & I7 & I8).
  set (f1 := fold_left reap_one dead f) in *.
  destruct (fold_left Z.max dead 0 + 1 =? zlen (zones f1)); cbn [fst snd]; cbv zeta.
  2: { split; [exact I1|]. split; [exact I2|]. split; [exact Hd|]. split; [exact ND|].
       split; [exact I6|]. split; [exact I7|exact I8]. }
  destruct (last_nonempty_spec f1) as [L1 L2].
  set (fe := last_nonempty f1) in *.
  set (f2 := set_empties _ _).
  assert (Hm : forall z, zm_mem z (filter (fun p => fst p <? fe) (empties f1)) = (z <? fe) && zm_mem z (empties f1)).
  { intros z. unfold zm_mem. rewrite (zm_get_filter_key (fun k => k <? fe)). now destruct (z <? fe). }
  assert (Hv : forall z, view f2 z = view f1 z).
  { intros z. destruct (Z.ltb_spec z fe).
    - unfold view. cbn [f2 set_empties set_zones zones empties opens]. rewrite ztake_lget by lia.
      rewrite Hm. destruct (Z.ltb_spec z fe); [|lia]. reflexivity.
    - assert (E1 : view f1 z = ZEmpty).
      { destruct (Z.ltb_spec z (zlen (zones f1))); [|apply view_out; lia].
        specialize (L2 z ltac:(lia)). rewrite is_empty_view in L2 by (auto; lia).
        now destruct (view f1 z). }
      rewrite E1. unfold view. cbn [f2 set_empties set_zones zones empties opens]. rewrite ztake_lget by lia.
      destruct (Z.ltb_spec z fe); [lia|reflexivity]. }
  assert (Lf2 : zlen (zones f2) = fe).
  { cbn [f2 set_empties set_zones zones]. unfold ztake, zlen in *. rewrite firstn_length. lia. }
  split.
  { split.
    - cbn [f2 set_empties set_zones empties]. apply zm_ok_filter. apply I1.
    - apply I1.
    - intros z. rewrite Lf2. cbn [f2 set_empties set_zones empties]. rewrite Hm. intros X.
      assert (M : zm_mem z (empties f1) = true) by (destruct (z <? fe); [exact X|discriminate]).
      apply (r_erange f1 I1) in M. lia.
    - intros z. rewrite Lf2. cbn [f2 set_empties set_zones opens]. intros X.
      pose proof (r_orange f1 I1 z X) as Hr. split; [lia|].
      rewrite is_open_view in X by auto. destruct (Z.ltb_spec z fe); [lia|exfalso].
      specialize (L2 z ltac:(lia)). rewrite is_empty_view in L2 by (auto; lia). now destruct (view f1 z).
    - intros z. cbn [f2 set_empties set_zones empties opens]. rewrite Hm. intros X Y.
      apply (r_disj f1 I1 z); [|exact Y]. destruct (z <? fe); [exact X|discriminate].
    - rewrite Lf2. cbn [f2 set_empties set_zones total_zones]. pose proof (r_len f1 I1). lia.
    - intros z x. cbn [f2 set_empties set_zones empties zones]. rewrite Hm, ztake_lget by lia.
      destruct (z <? fe); [|discriminate]. cbn [andb]. apply I1. }
  split; [exact I2|]. split; [exact Hd|]. split; [exact ND|].
  split; [intros z Hz; rewrite Hv; auto|].
  split; [intros z Hz; rewrite Hv; auto|]. exact I8.
Qed.
