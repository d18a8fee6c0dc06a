(** Invariant of concurrent relocations and deletions of different records. *)
From Coq Require Import Permutation.
From Verif Require Import Common ZMap FSM_Model FSM_Spec FSM_Proofs FSM_Inv FSM_Props DDML_Model DDML_Proofs
  IDML_Model IDML_Proofs IDMLConc_Model.

Section W.
Context (K : codecs) (v : vdev) (junk : Z -> list Z).
Hypothesis OK : codecs_ok K.
Hypothesis G : geometry v.

(** ** Blocks written since their zone was last erased *)

Definition dwrote (d : Z -> dz) (z p : Z) : Prop :=
  match d z with DEmpty => False | DOpen wp => p < wp | DFull => True end.

Definition wrote (c : cluster) (p : Z) : Prop :=
  exists z, 0 <= z < v_zones v /\ fst (v_lim v z) <= p < snd (v_lim v z) /\
  match view (fs c) z with ZEmpty => False | ZOpen oz _ => p < zstart v z + oalloc oz | _ => True end.

Lemma wrote_dev c d p : (forall z, d z = dz_v v z (view (fs c) z)) ->
  (wrote c p <-> exists z, 0 <= z < v_zones v /\ fst (v_lim v z) <= p < snd (v_lim v z) /\ dwrote d z p).
Proof.
  intros V. unfold wrote, dwrote. split; intros (z & A & B & C); exists z; (split; [exact A|]; split; [exact B|]);
    specialize (V z); destruct (view (fs c) z); cbn [dz_v] in V; rewrite V in *; auto.
Qed.

Lemma dev_wrote z p : forall o d d', (forall x, In x o -> match x with VErase _ => False | _ => True end) ->
  dev_run v d o = Some d' -> dwrote d z p ->
  dwrote d' z p /\ forall z' l n, In (VWrite z' l n) o -> z' = z -> p < l.
Proof.
  induction o as [|x o IH]; intros d d' Q R F.
  - cbn in R. injection R as <-. split; [exact F|]. intros ? ? ? [].
  - cbn [dev_run] in R. destruct (dev_step v d x) as [d1|] eqn:E; cbn [obind] in R; [|discriminate].
    assert (F1 : dwrote d1 z p /\ forall z' l n, x = VWrite z' l n -> z' = z -> p < l).
    { pose proof (Q x (or_introl eq_refl)) as Qx. unfold dwrote in *.
      destruct x as [y|y l n|y g|y|y|y a]; try contradiction; cbn [dev_step] in E;
        (destruct (d y) as [|wp|] eqn:Ey; try discriminate;
         try (destruct (_ && _) eqn:EB in E; [|discriminate]);
         try (destruct (_ =? _) eqn:EC in E; [|discriminate]);
         injection E as <-; unfold dset in *;
         destruct (Z.eqb_spec z y) as [->|N]; try rewrite Ey in *; try contradiction;
         (split; [try lia; auto|intros ? ? ? X; try discriminate X; try (injection X as -> -> ->; intros; subst; try lia; try congruence)])). }
    destruct F1 as [F1 F2].
    destruct (IH d1 d' (fun y Hy => Q y (or_intror Hy)) R F1) as [I1 I2]. split; [exact I1|].
    intros z' l n [X|X]; eauto.
Qed.

Lemma put_wrote c dk recs clf tr b cmp txg ch s' r :
  Store K v c dk recs clf tr -> 0 < zlen b < U32MAX -> comp_ok cmp -> 0 <= txg < TXG_MAX ->
  put_common K v junk b cmp txg (mkddml c dk ch) = Some (s', r) ->
  (forall p, wrote c p -> wrote (dcl s') p) /\
  (forall p, wrote c p -> disk s' p = dk p) /\
  (forall d, r = Ok d -> forall p, d_pba d <= p < d_pba d + asize d -> ~ wrote c p /\ wrote (dcl s') p).
Proof.
  intros ((live & P & R) & F) L C T E. unfold put_common in E. replace (zlen b <? U32MAX) with true in E by lia. cbn [oassert] in E.
  pose proof (compress_ok K OK cmp b C L) as CO. destruct (compress K cmp b) as [cb c'] eqn:EC.
  destruct CO as (CL & _). cbn [dcl disk dcache] in E. set (space := div_ceil (zlen cb) BPL) in *.
  assert (SP : 0 < space < 2^32).
  { pose proof (div_ceil_pos (zlen cb) BPL BPL_pos ltac:(lia)). pose proof (div_ceil_le (zlen cb) BPL BPL_pos ltac:(lia)).
    unfold space. unfold U32MAX in L. lia. }
  assert (LG : FSM_Spec.legal live clf (CWrite space txg)) by (cbn [FSM_Spec.legal]; lia).
  destruct (write v space txg c) as [[[c2 r2] o]|] eqn:EW; [|discriminate]. cbn [obind] in E.
  pose proof (reach_step v c live clf tr (CWrite space txg) c2 (RWrite r2) o R LG) as R2.
  cbn [FSM_Spec.step] in R2. rewrite EW in R2. cbn [obind] in R2. specialize (R2 eq_refl).
  destruct (write_effect v space txg c c2 r2 o EW) as (o1 & Q1 & EO).
  pose proof (reach_inv v G c live clf tr R) as I1. pose proof (reach_inv v G _ _ _ _ R2) as I2.
  destruct (i_dev _ _ _ _ _ I1) as (d1 & D1 & V1). destruct (i_dev _ _ _ _ _ I2) as (d2 & D2 & V2).
  rewrite dev_run_app, D1 in D2. cbn [obind] in D2.
  assert (QE : forall x, In x o -> match x with VErase _ => False | _ => True end).
  { intros x Hx. assert (In x o1 \/ exists z l n, x = VWrite z l n) as [Hx1|(z & l & n & ->)].
    { destruct r2 as [lba|]; [destruct EO as (z & ->)|subst o; auto]. apply in_app_or in Hx.
      destruct Hx as [Hx|[<-|[]]]; eauto. }
    - destruct (Q1 x Hx1) as (z & [-> | ->]); exact Logic.I.
    - exact Logic.I. }
  assert (MONO : forall p, wrote c p -> wrote c2 p).
  { intros p W. apply (wrote_dev c d1 p V1) in W. destruct W as (z & A & B & W). apply (wrote_dev c2 d2 p V2).
    exists z. split; [exact A|]. split; [exact B|]. apply (dev_wrote z p o d1 d2 QE D2 W). }
  cbn [live_next clean_next] in R2. destruct r2 as [lba|].
  - destruct EO as (zw & EO). subst o.
    rewrite fold_left_app, (apply_quiet v junk cb o1 dk Q1) in E. cbn [fold_left dev_apply disk] in E. injection E as <- <-. cbn [dcl disk].
    assert (WZ : 0 <= zw < v_zones v /\ fst (v_lim v zw) <= lba /\ lba + space <= snd (v_lim v zw) /\ d2 zw = DOpen (lba + space)).
    { pose proof D2 as D2'. rewrite dev_run_app in D2'. destruct (dev_run v d1 o1) as [d3|] eqn:D3; cbn [obind] in D2'; [|discriminate].
      cbn [dev_run dev_step] in D2'. destruct (d3 zw) as [|wp|] eqn:Ew; try discriminate.
      destruct (_ && _) eqn:EB in D2'; [|discriminate]. cbn [obind] in D2'. injection D2' as <-.
      apply andb_prop in EB. destruct EB as [EB B3]. apply andb_prop in EB. destruct EB as [B0 B4].
      assert (DI : dinv v d1).
      { intros y wq Hy. rewrite V1 in Hy. destruct (view (fs c) y) as [|oz x|s t|x] eqn:Vy; cbn [dz_v] in Hy; try discriminate.
        injection Hy as <-. pose proof (view_range (fs c) y ltac:(congruence)) as Ry.
        pose proof (r_len _ (i_rep _ _ _ _ _ I1)) as Rl. pose proof (i_tot _ _ _ _ _ I1) as Rt.
        pose proof (i_zone _ _ _ _ _ I1 y ltac:(lia)) as ZI. rewrite Vy in ZI. cbn [zone_inv] in ZI.
        unfold zstart, zend in *. lia. }
      assert (DI3 : dinv v d3).
      { clear - G DI D3. revert d1 DI D3. induction o1 as [|x o1 IHo]; intros d1 DI D3.
        - cbn in D3. now injection D3 as <-.
        - cbn [dev_run] in D3. destruct (dev_step v d1 x) as [dx|] eqn:Ex; cbn [obind] in D3; [|discriminate].
          eapply IHo; [|exact D3]. eapply dev_step_dinv; eauto. }
      destruct (DI3 zw wp Ew) as [A1 A2]. split; [exact A1|]. unfold dset. rewrite Z.eqb_refl. repeat split; lia. }
    destruct WZ as (W1 & W2 & W3 & W4).
    assert (NW : forall p, lba <= p < lba + space -> ~ wrote c p).
    { intros p Hp W. apply (wrote_dev c d1 p V1) in W. destruct W as (z & A & B & W).
      assert (z = zw).
      { pose proof (proj2 (g_zone_of v G p z) ltac:(auto)) as X1. pose proof (proj2 (g_zone_of v G p zw) ltac:(lia)) as X2. congruence. }
      subst z. destruct (dev_wrote zw p _ d1 d2 QE D2 W) as [_ X].
      specialize (X zw lba space ltac:(apply in_or_app; right; now left) eq_refl). lia. }
    split; [exact MONO|]. split.
    + intros p W. unfold write_data. destruct ((lba <=? p) && (p <? lba + div_ceil (zlen cb) BPL)) eqn:X; [|reflexivity].
      exfalso. apply (NW p); [|exact W]. unfold space. lia.
    + intros d Ed p Hp. injection Ed as <-. unfold asize in Hp. cbn [d_pba d_csize] in Hp. fold space in Hp. split; [auto|].
      apply (wrote_dev c2 d2 p V2). exists zw. split; [exact W1|]. split; [lia|]. unfold dwrote. rewrite W4. lia.
  - subst o. rewrite (apply_quiet v junk cb o1 _ Q1) in E. injection E as <- <-. cbn [dcl disk].
    split; [exact MONO|]. split; [reflexivity|]. intros d Ed. discriminate.
Qed.

Lemma free_wrote c dk recs clf tr d b ch s' : Store K v c dk recs clf tr -> In (d, b) recs ->
  delete_direct v d (mkddml c dk ch) = Some s' -> disk s' = dk /\ forall p, wrote c p -> wrote (dcl s') p.
Proof.
  intros ((live & P & R) & F) IN E. unfold delete_direct in E. cbn [dcl disk dcache] in E.
  assert (IL : In (d_pba d, asize d) live).
  { eapply Permutation_in; [apply Permutation_sym; exact P|]. apply (in_map ext) in IN. exact IN. }
  destruct (free v (d_pba d) (asize d) c) as [c'|] eqn:EF; [|discriminate]. cbn [obind] in E. injection E as <-. cbn [dcl disk].
  split; [reflexivity|]. pose proof (reach_step v c live clf tr (CFree (d_pba d) (asize d)) c' RUnit [] R IL) as R2.
  cbn [FSM_Spec.step] in R2. rewrite EF in R2. specialize (R2 eq_refl). rewrite app_nil_r in R2.
  destruct (i_dev _ _ _ _ _ (reach_inv v G _ _ _ _ R)) as (d1 & D1 & V1).
  destruct (i_dev _ _ _ _ _ (reach_inv v G _ _ _ _ R2)) as (d2 & D2 & V2).
  rewrite D1 in D2. injection D2 as <-. intros p W. apply (wrote_dev c' d1 p V2). now apply (wrote_dev c d1 p V1).
Qed.

(** What is stored was written. *)
Lemma store_wrote c dk recs clf tr d b : Store K v c dk recs clf tr -> In (d, b) recs ->
  forall p, d_pba d <= p < d_pba d + asize d -> wrote c p.
Proof.
  intros ((live & P & R) & F) IN p Hp. pose proof (reach_inv v G _ _ _ _ R) as I.
  assert (IL : In (d_pba d, asize d) live).
  { eapply Permutation_in; [apply Permutation_sym; exact P|]. apply (in_map ext) in IN. exact IN. }
  destruct (l_in v _ (i_live _ _ _ _ _ I) _ IL) as (_ & z & Hz & IZ & B1 & B2). cbn [fst snd] in *. unfold zstart, zend in *.
  exists z. split; [exact Hz|]. split; [lia|]. pose proof (i_zone _ _ _ _ _ I z Hz) as ZI.
  destruct (view (fs c) z) eqn:V; cbn [zone_inv] in ZI.
  - pose proof (lsum_zero_none v live z (i_live _ _ _ _ _ I) ZI _ IL). congruence.
  - exact Logic.I.
  - destruct ZI as (A1 & A2 & A3 & A4 & A5 & _). specialize (A5 _ IL IZ). cbn [fst snd] in A5. unfold zstart in *. lia.
  - exact Logic.I.
Qed.

Lemma full_wrote c z p : 0 <= z < v_zones v -> full c z -> in_zone v z p = true -> wrote c p.
Proof.
  intros Hz F IZ. unfold in_zone in IZ. exists z. split; [exact Hz|]. split; [lia|]. unfold full in F.
  destruct (view (fs c) z); try contradiction; exact Logic.I.
Qed.

(** ** The invariant *)

(** The records a task holds in the store, apart from the tables. *)
Definition part (mall : list (Z * list Z)) (t : task) : list (drp * list Z) :=
  match t with
  | TDel r e f _ _ => if f then [(e_drp e, value mall r)] else []
  | TMov2 r e n => [(e_drp e, value mall r); (n, value mall r)]
  | TMov3 r e n _ _ => [(n, value mall r)]
  | _ => []
  end.

Definition parts mall (ts : list (Z * task)) := flat_map (fun q => part mall (snd q)) ts.

Lemma upd_get {A} i (o : option A) l j : zm_ok l -> zm_get j (upd i o l) = if j =? i then o else zm_get j l.
Proof. intros O. destruct o; cbn [upd]; [now rewrite zm_get_set|]. rewrite zm_get_del by exact O. destruct (j =? i); reflexivity. Qed.

Lemma upd_ok {A} i (o : option A) l : zm_ok l -> zm_ok (upd i o l).
Proof. intros O. destruct o; cbn [upd]; [now apply zm_ok_set|now apply zm_ok_del]. Qed.

Definition opart mall (o : option task) := match o with Some t => part mall t | None => [] end.

Lemma parts_perm mall (l l' : list (Z * task)) : Permutation l l' -> Permutation (parts mall l) (parts mall l').
Proof. intros P. unfold parts. now apply Permutation_flat_map. Qed.

Lemma parts_upd mall i o ts : zm_ok ts -> Permutation (parts mall (upd i o ts)) (opart mall o ++ parts mall (zm_del i ts)).
Proof.
  intros O. destruct o as [t|]; cbn [upd opart].
  - rewrite (parts_perm _ _ _ (zm_set_perm i t ts O)). reflexivity.
  - reflexivity.
Qed.

Lemma parts_split mall i t ts : zm_ok ts -> zm_get i ts = Some t -> Permutation (parts mall ts) (part mall t ++ parts mall (zm_del i ts)).
Proof. intros O E. rewrite (parts_perm _ _ _ (zm_del_perm i t ts O E)). reflexivity. Qed.

Section Inv.
Variable z : Z.

Definition kept (c : cluster) (dk : Z -> list Z) (d : drp) (b : list Z) : Prop :=
  content K dk (d, b) /\ forall p, d_pba d <= p < d_pba d + asize d -> wrote c p.

Definition TI (s : idml) (base : list (Z * entry)) (mall : list (Z * list Z)) (m : Z -> option (list Z)) (t : task) : Prop :=
  task_rid t < next_rid s /\
  match t with
  | TDel0 r => m r = None /\ exists e, zm_get r base = Some e
  | TDel r e f a q => m r = None /\ zm_get r base = None /\ zm_get r (ridt s) = (if q then Some e else None) /\
      (a = true -> zm_get (d_pba (e_drp e)) (alloct s) = Some r /\ wrote (dcl (dd s)) (d_pba (e_drp e))) /\
      zm_get r (icache s) = None
  | TMov0 r txg => 0 <= txg < TXG_MAX /\ exists e, zm_get r base = Some e /\ in_zone v z (d_pba (e_drp e)) = true
  | TMov1 r txg e => 0 <= txg < TXG_MAX /\ zm_get r base = Some e /\ in_zone v z (d_pba (e_drp e)) = true
  | TMov2 r e n => m r = Some (value mall r) /\ zm_get r base = None /\ zm_get r (ridt s) = Some e /\ e_ref e = 1 /\
      in_zone v z (d_pba (e_drp e)) = true /\ zm_get (d_pba n) (alloct s) = None
  | TMov3 r e n q a => m r = Some (value mall r) /\ zm_get r base = None /\
      zm_get r (ridt s) = Some (if q then e else mkentry n 1) /\ e_ref e = 1 /\
      zm_get (d_pba n) (alloct s) = (if a then None else Some r) /\
      kept (dcl (dd s)) (disk (dd s)) (e_drp e) (value mall r)
  end.

Record CInv (s : idml) (ts : list (Z * task)) (base : list (Z * entry)) (mall : list (Z * list Z))
            (m : Z -> option (list Z)) (used : list Z) : Prop := {
  k_base : zm_ok base; k_ridt : zm_ok (ridt s); k_alloct : zm_ok (alloct s); k_icache : zm_ok (icache s);
  k_mall : zm_ok mall; k_ts : zm_ok ts;
  k_dcache : dcache (dd s) = [];
  k_full : full (dcl (dd s)) z;
  k_store : exists cl tr, Store K v (dcl (dd s)) (disk (dd s)) (recs base mall ++ parts mall ts) cl tr;
  k_dist : forall i j t u, zm_get i ts = Some t -> zm_get j ts = Some u -> task_rid t = task_rid u -> i = j;
  k_task : forall i t, zm_get i ts = Some t -> TI s base mall m t;
  k_ent : forall r e, zm_get r base = Some e ->
     zm_get r (ridt s) = Some e /\ zm_get (d_pba (e_drp e)) (alloct s) = Some r /\ e_ref e = 1 /\ r < next_rid s /\
     ((forall i t, zm_get i ts = Some t -> task_rid t = r -> isdel t = false) -> m r = Some (value mall r));
  k_none : forall r, zm_get r base = None -> (forall i t, zm_get i ts = Some t -> task_rid t <> r) -> zm_get r (ridt s) = None /\ m r = None;
  k_ex : forall p r, zm_get p (alloct s) = Some r ->
     in_zone v z p = true \/ (exists e, zm_get r base = Some e /\ d_pba (e_drp e) = p) \/
     exists i t, zm_get i ts = Some t /\
       match t with TDel r' e _ true _ => r' = r /\ d_pba (e_drp e) = p | TMov3 r' e n _ false => r' = r /\ d_pba n = p | _ => False end;
  k_cache : forall r b, zm_get r (icache s) = Some b -> b = value mall r /\ zm_get r (ridt s) <> None;
  k_used : forall r, In r used -> r < next_rid s
}.

Hypothesis Hz : 0 <= z < v_zones v.

Lemma in_base s ts base mall m used r e : CInv s ts base mall m used -> zm_get r base = Some e ->
  In (e_drp e, value mall r) (recs base mall ++ parts mall ts).
Proof.
  intros I E. apply in_or_app. left. eapply Permutation_in; [apply Permutation_sym; apply recs_split; [apply (k_base _ _ _ _ _ _ I)|exact E]|].
  now left.
Qed.

Lemma in_part s ts base mall m used i t x : CInv s ts base mall m used -> zm_get i ts = Some t -> In x (part mall t) ->
  In x (recs base mall ++ parts mall ts).
Proof.
  intros I E H. apply in_or_app. right. unfold parts. apply in_flat_map. exists (i, t). split; [now apply zm_get_in|exact H].
Qed.

Lemma rec_pos c dk l cl tr d b : Store K v c dk l cl tr -> In (d, b) l -> 0 < asize d.
Proof.
  intros [_ F] H. rewrite Forall_forall in F. specialize (F _ H). destruct F as (st & _ & _ & _ & _ & L).
  unfold asize. apply div_ceil_pos; [apply BPL_pos|lia].
Qed.

Lemma rec_kept s ts base mall m used d b : CInv s ts base mall m used -> In (d, b) (recs base mall ++ parts mall ts) ->
  kept (dcl (dd s)) (disk (dd s)) d b /\ wrote (dcl (dd s)) (d_pba d).
Proof.
  intros I H. destruct (k_store _ _ _ _ _ _ I) as (cl & tr & S). pose proof (rec_pos _ _ _ _ _ _ _ S H) as P.
  split; [split|].
  - destruct S as [_ F]. rewrite Forall_forall in F. now apply F.
  - eapply store_wrote; eauto.
  - eapply store_wrote; eauto. lia.
Qed.

(** Every address in the allocation table was written since its zone was erased. *)
Lemma alloct_wrote s ts base mall m used p r : CInv s ts base mall m used -> zm_get p (alloct s) = Some r -> wrote (dcl (dd s)) p.
Proof.
  intros I E. destruct (k_ex _ _ _ _ _ _ I p r E) as [X|[(e & Ee & <-)|(i & t & Et & X)]].
  - eapply full_wrote; eauto. apply (k_full _ _ _ _ _ _ I).
  - eapply rec_kept; eauto. eapply in_base; eauto.
  - destruct t as [|r' e f [|] q| | | |r' e n q [|]]; try contradiction.
    + destruct X as [-> <-]. destruct (k_task _ _ _ _ _ _ I i _ Et) as (_ & _ & _ & _ & A & _). now apply A.
    + destruct X as [-> <-]. eapply rec_kept; [exact I|]. eapply in_part; [exact I|exact Et|]. now left.
Qed.

(** What the other tasks know is not changed by a step of one task. *)
Lemma TI_frame s s' base base' mall mall' m m' u :
  TI s base mall m u ->
  next_rid s <= next_rid s' ->
  zm_get (task_rid u) base' = zm_get (task_rid u) base -> m' (task_rid u) = m (task_rid u) ->
  zm_get (task_rid u) (ridt s') = zm_get (task_rid u) (ridt s) ->
  (zm_get (task_rid u) (icache s) = None -> zm_get (task_rid u) (icache s') = None) ->
  value mall' (task_rid u) = value mall (task_rid u) ->
  (forall p, wrote (dcl (dd s)) p -> wrote (dcl (dd s')) p) ->
  (forall p, wrote (dcl (dd s)) p -> disk (dd s') p = disk (dd s) p) ->
  match u with
  | TDel _ e _ true _ => zm_get (d_pba (e_drp e)) (alloct s') = zm_get (d_pba (e_drp e)) (alloct s)
  | TMov2 _ _ n | TMov3 _ _ n _ _ => zm_get (d_pba n) (alloct s') = zm_get (d_pba n) (alloct s)
  | _ => True end ->
  TI s' base' mall' m' u.
Proof.
  intros [N H] N' HB HM HR HC HV HW HD HA. split; [lia|].
  destruct u as [r|r e f a q|r txg|r txg e|r e n|r e n q a]; cbn [task_rid] in *; rewrite ?HB, ?HM, ?HR, ?HV; auto.
  - destruct H as (A & B & C & D & E). split; [exact A|]. split; [exact B|]. split; [exact C|]. split; [|auto].
    intros ->. rewrite HA. destruct (D eq_refl). auto.
  - rewrite HA. exact H.
  - rewrite HA. destruct H as (A & B & C & D & E & F & F'). repeat (split; [assumption|]). split.
    + eapply content_ext; [|exact F]. intros l Hl. cbn [fst] in Hl. apply HD. now apply F'.
    + auto.
Qed.

(** Copying a record, whatever else is stored. *)
Lemma copy_spec s l cl tr r e b txg : Store K v (dcl (dd s)) (disk (dd s)) l cl tr -> dcache (dd s) = [] -> In (e_drp e, b) l ->
  (forall x, zm_get r (icache s) = Some x -> x = b) -> 0 <= txg < TXG_MAX ->
  exists d1 y, move_copy K v junk r e txg s = Some (set_dd d1 s, y) /\ dcache d1 = [] /\
    (forall q, full (dcl (dd s)) q -> full (dcl d1) q) /\
    (forall p, wrote (dcl (dd s)) p -> wrote (dcl d1) p) /\
    (forall p, wrote (dcl (dd s)) p -> disk d1 p = disk (dd s) p) /\
    exists o, match y with
    | Err q => Store K v (dcl d1) (disk d1) l false (tr ++ o)
    | Ok n => Store K v (dcl d1) (disk d1) ((n, b) :: l) false (tr ++ o) /\ ~ wrote (dcl (dd s)) (d_pba n)
    end.
Proof.
  intros S DC IN HC T.
  assert (C : content K (disk (dd s)) (e_drp e, b)) by (destruct S as [_ F]; rewrite Forall_forall in F; now apply F).
  assert (PUT : forall x, 0 < zlen x < U32MAX -> exists d1 y, put_direct K v junk x CNone txg (dd s) = Some (d1, y) /\ dcache d1 = [] /\
       (forall q, full (dcl (dd s)) q -> full (dcl d1) q) /\
       (forall p, wrote (dcl (dd s)) p -> wrote (dcl d1) p) /\
       (forall p, wrote (dcl (dd s)) p -> disk d1 p = disk (dd s) p) /\
       exists o, match y with
       | Err q => Store K v (dcl d1) (disk d1) l false (tr ++ o)
       | Ok n => Store K v (dcl d1) (disk d1) ((n, x) :: l) false (tr ++ o) /\ ~ wrote (dcl (dd s)) (d_pba n) /\ d_compressed n = false
       end).
  { intros x L. destruct (dd s) as [c dk ch] eqn:ED. cbn [dcl disk dcache] in *. subst ch.
    destruct (put_spec K v junk OK G c dk _ cl tr x CNone txg [] S Logic.I L T) as (d1 & y & EP & EC & FU & o & R).
    destruct (put_wrote c dk _ cl tr x CNone txg [] d1 y S L Logic.I T EP) as (W1 & W2 & W3).
    exists d1, y. repeat (split; [assumption|]). exists o. destruct y as [n|q]; [|tauto].
    destruct R as (S' & _ & _ & UN). split; [exact S'|]. split; [|now apply UN].
    eapply W3; [reflexivity|]. pose proof (rec_pos _ _ _ _ _ _ _ S' (or_introl eq_refl)). lia. }
  destruct C as (sx & R1 & R2 & R3 & R4 & R5). unfold move_copy.
  destruct (if d_compressed (e_drp e) then None else zm_get r (icache s)) as [x|] eqn:EH.
  - assert (x = b /\ zlen b = d_csize (e_drp e)) as [-> LB].
    { destruct (d_compressed (e_drp e)) eqn:U; [discriminate|]. apply HC in EH. unfold decode in R4. rewrite U in R4. split; congruence. }
    destruct (PUT b ltac:(lia)) as (d1 & y & EP & EC & FU & W1 & W2 & o & R). rewrite EP. cbn [obind].
    exists d1, y. repeat (split; [assumption || reflexivity|]). exists o. destruct y as [n|q]; [|exact R]. tauto.
  - unfold get_direct. assert (RU : read_blocks K (as_uncompressed (e_drp e)) (dd s) = Some (Ok sx)).
    { unfold read_blocks, ddml_read, as_uncompressed, asize in *. cbn [d_pba d_csize d_ck d_compressed].
      rewrite R1, <- R2, pad_take, R3, Z.eqb_refl. reflexivity. }
    rewrite RU. cbn [obind].
    destruct (PUT sx ltac:(lia)) as (d1 & y & EP & EC & FU & W1 & W2 & o & R). rewrite EP. cbn [obind].
    eexists d1, _. split; [reflexivity|]. repeat (split; [assumption|]). exists o.
    destruct y as [n|q]; [|exact R]. destruct R as (((live & P & RR) & F) & NW & U). split; [|exact NW].
    split; [exists live; split; [exact P|exact RR]|]. inversion F; subst. constructor; [|assumption].
    eapply content_recompress; eauto.
Qed.

(** A step of one task, in general. *)
Lemma CInv_step s ts base mall m used i t o s' base' :
  CInv s ts base mall m used -> zm_get i ts = Some t ->
  zm_ok base' -> zm_ok (ridt s') -> zm_ok (alloct s') -> zm_ok (icache s') -> dcache (dd s') = [] -> full (dcl (dd s')) z ->
  (exists cl tr, Store K v (dcl (dd s')) (disk (dd s')) (recs base' mall ++ opart mall o ++ parts mall (zm_del i ts)) cl tr) ->
  next_rid s' = next_rid s ->
  (forall r, r <> task_rid t -> zm_get r base' = zm_get r base /\ zm_get r (ridt s') = zm_get r (ridt s)) ->
  (forall r b, zm_get r (icache s') = Some b -> zm_get r (icache s) = Some b /\ (r = task_rid t -> zm_get r (ridt s') <> None)) ->
  (forall p, wrote (dcl (dd s)) p -> wrote (dcl (dd s')) p) ->
  (forall p, wrote (dcl (dd s)) p -> disk (dd s') p = disk (dd s) p) ->
  (forall j u, j <> i -> zm_get j ts = Some u ->
     match u with
     | TDel _ e _ true _ => zm_get (d_pba (e_drp e)) (alloct s') = zm_get (d_pba (e_drp e)) (alloct s)
     | TMov2 _ _ n | TMov3 _ _ n _ _ => zm_get (d_pba n) (alloct s') = zm_get (d_pba n) (alloct s)
     | _ => True end) ->
  (forall r e, r <> task_rid t -> zm_get r base = Some e -> zm_get (d_pba (e_drp e)) (alloct s') = Some r) ->
  (forall t', o = Some t' -> task_rid t' = task_rid t /\ isdel t' = isdel t /\ TI s' base' mall m t') ->
  (forall e, zm_get (task_rid t) base' = Some e -> zm_get (task_rid t) (ridt s') = Some e /\
     zm_get (d_pba (e_drp e)) (alloct s') = Some (task_rid t) /\ e_ref e = 1 /\
     (isdel t = false -> m (task_rid t) = Some (value mall (task_rid t))) /\ (o = None -> isdel t = false)) ->
  (zm_get (task_rid t) base' = None -> o = None -> zm_get (task_rid t) (ridt s') = None /\ m (task_rid t) = None) ->
  (forall p r, zm_get p (alloct s') = Some r ->
     in_zone v z p = true \/ (r <> task_rid t /\ zm_get p (alloct s) = Some r) \/
     (r = task_rid t /\ ((exists e, zm_get r base' = Some e /\ d_pba (e_drp e) = p) \/
        exists t', o = Some t' /\ match t' with TDel r' e _ true _ => r' = r /\ d_pba (e_drp e) = p | TMov3 r' e n _ false => r' = r /\ d_pba n = p | _ => False end))) ->
  CInv s' (upd i o ts) base' mall m used.
Proof.
  intros I Et Ob Or Oa Oi DC FU ST NX HR HC HW HD HA HB HT HE HN HX.
  pose proof (k_ts _ _ _ _ _ _ I) as Ots.
  assert (OTH : forall j u, j <> i -> zm_get j ts = Some u -> task_rid u <> task_rid t).
  { intros j u N E X. apply N. eapply (k_dist _ _ _ _ _ _ I); eauto. }
  assert (NEW : forall j u, zm_get j (upd i o ts) = Some u -> (j = i /\ o = Some u /\ task_rid u = task_rid t) \/ (j <> i /\ zm_get j ts = Some u /\ task_rid u <> task_rid t)).
  { intros j u E. rewrite upd_get in E by exact Ots. destruct (Z.eqb_spec j i) as [->|N].
    - left. split; [reflexivity|]. split; [exact E|]. now apply HT.
    - right. split; [exact N|]. split; [exact E|]. eapply OTH; eauto. }
  constructor; auto.
  - apply (k_mall _ _ _ _ _ _ I).
  - now apply upd_ok.
  - destruct ST as (cl & tr & S). exists cl, tr. eapply Store_perm; [exact S|].
    apply Permutation_app_head. now rewrite parts_upd.
  - intros j1 j2 t1 t2 E1 E2 ER.
    destruct (NEW _ _ E1) as [(-> & _ & X1)|(N1 & F1 & X1)], (NEW _ _ E2) as [(-> & _ & X2)|(N2 & F2 & X2)]; try congruence.
    eapply (k_dist _ _ _ _ _ _ I); eauto.
  - intros j u E. destruct (NEW _ _ E) as [(-> & F & X)|(N & F & X)].
    + now apply HT.
    + destruct (HR _ X) as [HR1 HR2].
      eapply TI_frame; [exact (k_task _ _ _ _ _ _ I j u F)|lia|exact HR1|reflexivity|exact HR2| |reflexivity|exact HW|exact HD|eapply HA; eauto].
      intros C0. destruct (zm_get (task_rid u) (icache s')) eqn:EC; [|reflexivity]. apply HC in EC. destruct EC. congruence.
  - intros r e E. destruct (Z.eq_dec r (task_rid t)) as [->|N].
    + destruct (HE e E) as (A & B & C & D & F). repeat (split; [assumption|]). split.
      * rewrite NX. apply (k_task _ _ _ _ _ _ I i t Et).
      * intros ND. apply D. destruct o as [t'|]; [|now apply F]. destruct (HT t' eq_refl) as (X1 & X2 & _). rewrite <- X2.
        apply (ND i t'); [|exact X1]. rewrite upd_get by exact Ots. now rewrite Z.eqb_refl.
    + destruct (HR r N) as [HR1 HR2]. rewrite HR1 in E. destruct (k_ent _ _ _ _ _ _ I r e E) as (A & B & C & D & F).
      rewrite HR2. split; [exact A|]. split; [now apply HB|]. split; [exact C|]. split; [lia|].
      intros ND. apply F. intros j u Ej Eu. destruct (Z.eq_dec j i) as [->|Nj]; [congruence|].
      apply (ND j u); [|exact Eu]. rewrite upd_get by exact Ots. now replace (j =? i) with false by lia.
  - intros r E ND. destruct (Z.eq_dec r (task_rid t)) as [->|N].
    + apply HN; [exact E|]. destruct o as [t'|]; [|reflexivity]. exfalso. apply (ND i t'); [|now apply HT].
      rewrite upd_get by exact Ots. now rewrite Z.eqb_refl.
    + destruct (HR r N) as [HR1 HR2]. rewrite HR1 in E. rewrite HR2. apply (k_none _ _ _ _ _ _ I r E).
      intros j u Ej Eu. destruct (Z.eq_dec j i) as [->|Nj]; [congruence|]. apply (ND j u); [|exact Eu].
      rewrite upd_get by exact Ots. now replace (j =? i) with false by lia.
  - intros p r E. destruct (HX p r E) as [X|[(N & X)|(-> & [X|(t' & -> & X)])]]; [now left| | |].
    + destruct (k_ex _ _ _ _ _ _ I p r X) as [Y|[(e & Ee & Ep)|(j & u & Ej & Y)]]; [now left| |].
      * right; left. exists e. destruct (HR r N) as [HR1 _]. rewrite HR1. auto.
      * right; right. exists j, u. split; [|exact Y]. rewrite upd_get by exact Ots. destruct (Z.eqb_spec j i) as [->|]; [|exact Ej].
        exfalso. assert (u = t) by congruence. subst u. apply N. destruct t as [|r' e f [|] q| | | |r' e n q [|]]; try contradiction; cbn; symmetry; tauto.
    + right; left. exact X.
    + right; right. exists i, t'. rewrite upd_get by exact Ots. rewrite Z.eqb_refl. auto.
  - intros r b E. apply HC in E. destruct E as [E1 E2]. destruct (k_cache _ _ _ _ _ _ I r b E1) as [A B]. split; [exact A|].
    destruct (Z.eq_dec r (task_rid t)) as [->|N]; [now apply E2|]. destruct (HR r N) as [_ HR2]. now rewrite HR2.
  - intros r Hr. rewrite NX. now apply (k_used _ _ _ _ _ _ I).
Qed.

(** A step that does nothing. *)
Lemma CInv_idle s ts base mall m used i t : CInv s ts base mall m used -> zm_get i ts = Some t ->
  CInv s (upd i (Some t) ts) base mall m used.
Proof.
  intros I E. cbn [upd].
  assert (X : zm_set i t ts = ts).
  { apply zm_ext; [apply zm_ok_set|..]; try apply (k_ts _ _ _ _ _ _ I). intros j. rewrite zm_get_set by apply (k_ts _ _ _ _ _ _ I).
    destruct (Z.eqb_spec j i) as [->|]; congruence. }
  now rewrite X.
Qed.

(** Where an entry of the allocation table for the task's own id comes from. *)
Lemma ex_own s ts base mall m used i t p : CInv s ts base mall m used -> zm_get i ts = Some t ->
  zm_get p (alloct s) = Some (task_rid t) ->
  in_zone v z p = true \/ (exists e, zm_get (task_rid t) base = Some e /\ d_pba (e_drp e) = p) \/
  match t with TDel _ e _ true _ => d_pba (e_drp e) = p | TMov3 _ e n _ false => d_pba n = p | _ => False end.
Proof.
  intros I E A. destruct (k_ex _ _ _ _ _ _ I p _ A) as [X|[X|(j & u & Eu & X)]]; [now left|right; now left|]. right; right.
  assert (R : task_rid u = task_rid t) by (destruct u as [|r' e f [|] q| | | |r' e n q [|]]; try contradiction; cbn; tauto).
  assert (j = i) by (eapply (k_dist _ _ _ _ _ _ I); eauto). subst j. assert (u = t) by congruence. subst u.
  destruct t as [|r' e f [|] q| | | |r' e n q [|]]; try contradiction; tauto.
Qed.

(** Different records of the store have different addresses. *)
Lemma pba_parts s ts base mall m used i j t u n n' b b' : CInv s ts base mall m used -> j <> i ->
  zm_get i ts = Some t -> zm_get j ts = Some u -> In (n, b) (part mall t) -> In (n', b') (part mall u) -> d_pba n <> d_pba n'.
Proof.
  intros I N Et Eu Hn Hn'. destruct (k_store _ _ _ _ _ _ I) as (cl & tr & S).
  pose proof (parts_split mall i t ts (k_ts _ _ _ _ _ _ I) Et) as P1.
  assert (Eu' : zm_get j (zm_del i ts) = Some u).
  { rewrite zm_get_del by apply (k_ts _ _ _ _ _ _ I). now replace (j =? i) with false by lia. }
  pose proof (parts_split mall j u (zm_del i ts) (zm_ok_del _ _ (k_ts _ _ _ _ _ _ I)) Eu') as P2.
  apply in_split in Hn. destruct Hn as (a1 & a2 & Ea). apply in_split in Hn'. destruct Hn' as (c1 & c2 & Ec).
  apply (Store_pba K v junk G _ _ _ _ _ (n, b) (n', b') (recs base mall ++ a1 ++ a2 ++ c1 ++ c2 ++ parts mall (zm_del j (zm_del i ts))) S).
  rewrite P1, P2, Ea, Ec. rewrite <- !app_assoc. cbn [app].
  rewrite <- (Permutation_middle a1). rewrite <- Permutation_middle. constructor.
  rewrite !app_assoc. rewrite <- !app_assoc. cbn [app].
  rewrite (app_assoc a1), (app_assoc (a1 ++ a2)). rewrite (app_assoc (recs base mall)).
  rewrite <- Permutation_middle. now rewrite <- !app_assoc.
Qed.

Lemma pba_base s ts base mall m used i t r e n b : CInv s ts base mall m used -> zm_get i ts = Some t ->
  In (n, b) (part mall t) -> zm_get r base = Some e -> d_pba n <> d_pba (e_drp e).
Proof.
  intros I Et Hn Er. destruct (k_store _ _ _ _ _ _ I) as (cl & tr & S).
  pose proof (parts_split mall i t ts (k_ts _ _ _ _ _ _ I) Et) as P1.
  pose proof (recs_split base mall r e (k_base _ _ _ _ _ _ I) Er) as P2.
  apply in_split in Hn. destruct Hn as (a1 & a2 & Ea).
  apply (Store_pba K v junk G _ _ _ _ _ (n, b) (e_drp e, value mall r) (recs (zm_del r base) mall ++ a1 ++ a2 ++ parts mall (zm_del i ts)) S).
  rewrite P1, P2, Ea. rewrite <- !app_assoc. cbn [app]. rewrite perm_swap. constructor.
  rewrite (app_assoc _ a1), (app_assoc _ a1). now rewrite <- Permutation_middle.
Qed.

Lemma base_after_del base mall r e : zm_ok base -> zm_get r base = Some e ->
  Permutation (recs base mall) ((e_drp e, value mall r) :: recs (zm_del r base) mall).
Proof. apply recs_split. Qed.

Lemma task_step_ok s ts base mall m used i t ch : CInv s ts base mall m used -> zm_get i ts = Some t ->
  exists s' o base', task_step K v junk ch t s = Some (s', o) /\ CInv s' (upd i o ts) base' mall m used.
Proof.
  intros I Et. pose proof (k_task _ _ _ _ _ _ I i t Et) as [TN T].
  pose proof (k_ts _ _ _ _ _ _ I) as Ots. pose proof (k_base _ _ _ _ _ _ I) as Ob.
  destruct (k_store _ _ _ _ _ _ I) as (cl & tr & ST).
  pose proof (parts_split mall i t ts Ots Et) as PP.
  assert (OTH : forall j u, j <> i -> zm_get j ts = Some u -> task_rid u <> task_rid t).
  { intros j u N E X. apply N. eapply (k_dist _ _ _ _ _ _ I); eauto. }
  destruct t as [r|r e f a q|r txg|r txg e|r e n|r e n q a]; cbn [task_rid] in *; cbn [task_step].
  - (* TDel0 *)
    destruct T as (Hm & e & Ee). destruct (k_ent _ _ _ _ _ _ I r e Ee) as (A & B & C & D & F). rewrite A. cbn [obind].
    eexists _, _, (zm_del r base). split; [reflexivity|].
    apply (CInv_step s ts base mall m used i _ _ _ _ I Et); cbn [idml_evict set_icache dd ridt alloct icache next_rid task_rid]; auto.
    + now apply zm_ok_del.
    + apply (k_ridt _ _ _ _ _ _ I).
    + apply (k_alloct _ _ _ _ _ _ I).
    + apply zm_ok_del, (k_icache _ _ _ _ _ _ I).
    + apply (k_dcache _ _ _ _ _ _ I).
    + apply (k_full _ _ _ _ _ _ I).
    + exists cl, tr. eapply Store_perm; [exact ST|]. rewrite PP. cbn [part app opart].
      rewrite (recs_split base mall r e Ob Ee). cbn [app]. apply Permutation_middle.
    + intros r' N. rewrite zm_get_del by exact Ob. now replace (r' =? r) with false by lia.
    + intros r' b. rewrite zm_get_del by apply (k_icache _ _ _ _ _ _ I). destruct (Z.eqb_spec r' r); [discriminate|]. intros X. split; [exact X|congruence].
    + intros j u _ _. destruct u as [|? ? ? [|] ?| | | |]; exact Logic.I || reflexivity.
    + intros r' e' N E'. now apply (k_ent _ _ _ _ _ _ I).
    + intros t' X. injection X as <-. split; [reflexivity|]. split; [reflexivity|]. split; [exact TN|].
      split; [exact Hm|]. cbn [idml_evict set_icache dd ridt alloct icache]. rewrite !zm_get_del by (exact Ob || apply (k_icache _ _ _ _ _ _ I)). rewrite Z.eqb_refl.
      split; [reflexivity|]. split; [exact A|]. split; [|reflexivity]. intros _. split; [exact B|].
      eapply alloct_wrote; eauto.
    + intros e'. rewrite zm_get_del by exact Ob. rewrite Z.eqb_refl. discriminate.
    + discriminate.
    + intros p r' E. destruct (Z.eq_dec r' r) as [->|N]; [|right; left; auto].
      destruct (ex_own _ _ _ _ _ _ _ _ p I Et E) as [X|[(e' & Ee' & Ep)|[]]]; [now left|]. right; right. split; [reflexivity|]. right.
      eexists. split; [reflexivity|]. cbn [task_rid] in Ee'. split; congruence.
  - (* TDel *)
    destruct T as (Hm & Hb & Hr & Ha & Hc). destruct ch.
    + (* free *)
      destruct f; [|eexists _, _, base; split; [reflexivity|]; now apply CInv_idle].
      cbn [part] in PP. destruct (dd s) as [c dk ch0] eqn:ED. pose proof (k_dcache _ _ _ _ _ _ I) as DC. rewrite ED in DC. cbn [dcl disk dcache] in *. subst ch0.
      assert (P2 : Permutation (recs base mall ++ parts mall ts) ((e_drp e, value mall r) :: recs base mall ++ parts mall (zm_del i ts))).
      { rewrite PP. cbn [app]. symmetry. apply Permutation_middle. }
      destruct (free_spec K v junk G c dk _ _ cl tr (e_drp e) (value mall r) [] ST P2) as (c' & EF & ST' & FU).
      assert (IN : In (e_drp e, value mall r) (recs base mall ++ parts mall ts)).
      { eapply Permutation_in; [apply Permutation_sym; exact P2|now left]. }
      destruct (free_wrote c dk _ cl tr (e_drp e) (value mall r) [] _ ST IN EF) as (D1 & W1).
      rewrite EF. cbn [obind dcl disk] in *. eexists _, _, base. split; [reflexivity|].
      apply (CInv_step s ts base mall m used i _ _ _ _ I Et); cbn [set_dd dd ridt alloct icache next_rid task_rid dcl disk dcache]; rewrite ?ED; cbn [dcl disk]; auto.
      * apply (k_ridt _ _ _ _ _ _ I).
      * apply (k_alloct _ _ _ _ _ _ I).
      * apply (k_icache _ _ _ _ _ _ I).
      * apply FU. pose proof (k_full _ _ _ _ _ _ I) as X. rewrite ED in X. exact X.
      * exists false, tr. unfold del_next. cbn [orb]. destruct (a || q); cbn [opart part app]; exact ST'.
      * intros r' b X. split; [exact X|]. intros ->. congruence.
      * intros j u _ _. destruct u as [|? ? ? [|] ?| | | |]; exact Logic.I || reflexivity.
      * intros r' e' N E'. now apply (k_ent _ _ _ _ _ _ I).
      * unfold del_next. cbn [orb]. destruct (a || q) eqn:X; [|discriminate]. intros t' Y. injection Y as <-.
        split; [reflexivity|]. split; [reflexivity|]. split; [exact TN|]. cbn [dd set_dd dcl ridt alloct icache].
        repeat (split; [assumption|]). split; [|exact Hc]. intros Y. destruct (Ha Y) as [H1 H2]. auto.
      * intros e' E'. congruence.
      * unfold del_next. cbn [orb]. destruct (a || q) eqn:X; [discriminate|]. intros _ _. apply orb_false_elim in X. destruct X as [-> ->]. auto.
      * intros p r' E. destruct (Z.eq_dec r' r) as [->|N]; [|right; left; auto].
        destruct (ex_own _ _ _ _ _ _ _ _ p I Et E) as [X|[(e' & Ee' & Ep)|X]]; [now left|cbn [task_rid] in Ee'; congruence|].
        destruct a; [|contradiction]. right; right. split; [reflexivity|]. right. unfold del_next. cbn [orb]. eexists. split; [reflexivity|]. cbn. auto.
    + (* alloct *)
      destruct a; [|eexists _, _, base; split; [reflexivity|]; now apply CInv_idle].
      destruct (Ha eq_refl) as [HA1 HA2]. unfold zm_mem. rewrite HA1. cbn [oassert]. eexists _, _, base. split; [reflexivity|].
      apply (CInv_step s ts base mall m used i _ _ _ _ I Et); cbn [set_alloct dd ridt alloct icache next_rid task_rid]; auto.
      * apply (k_ridt _ _ _ _ _ _ I).
      * apply zm_ok_del, (k_alloct _ _ _ _ _ _ I).
      * apply (k_icache _ _ _ _ _ _ I).
      * apply (k_dcache _ _ _ _ _ _ I).
      * apply (k_full _ _ _ _ _ _ I).
      * exists cl, tr. eapply Store_perm; [exact ST|]. apply Permutation_app_head. rewrite PP. unfold del_next.
        destruct f; cbn [part orb opart app]; [reflexivity|]. destruct q; reflexivity.
      * intros r' b X. split; [exact X|]. intros ->. congruence.
      * intros j u N Eu. assert (OT := OTH j u N Eu). pose proof (k_task _ _ _ _ _ _ I j u Eu) as [_ TU].
        destruct u as [|r' e' f' [|] q'| | |r' e' n'|r' e' n' q' a']; try exact Logic.I; cbn [task_rid] in OT;
          rewrite zm_get_del by apply (k_alloct _ _ _ _ _ _ I).
        -- destruct (Z.eqb_spec (d_pba (e_drp e')) (d_pba (e_drp e))) as [X|]; [|reflexivity]. exfalso.
           destruct TU as (_ & _ & _ & TU & _). destruct (TU eq_refl) as [TU1 _]. congruence.
        -- destruct (Z.eqb_spec (d_pba n') (d_pba (e_drp e))) as [X|]; [|reflexivity]. exfalso.
           destruct TU as (_ & _ & _ & _ & _ & TU). congruence.
        -- destruct (Z.eqb_spec (d_pba n') (d_pba (e_drp e))) as [X|]; [|reflexivity]. exfalso.
           destruct TU as (_ & _ & _ & _ & TU & _). destruct a'; congruence.
      * intros r' e' N E'. destruct (k_ent _ _ _ _ _ _ I r' e' E') as (_ & X & _).
        rewrite zm_get_del by apply (k_alloct _ _ _ _ _ _ I). destruct (Z.eqb_spec (d_pba (e_drp e')) (d_pba (e_drp e))) as [Y|]; [|exact X]. congruence.
      * unfold del_next. destruct (f || false || q) eqn:X; [|discriminate]. intros t' Y. injection Y as <-.
        split; [reflexivity|]. split; [reflexivity|]. split; [exact TN|]. cbn [dd set_alloct dcl ridt alloct icache].
        repeat (split; [assumption|]). split; [discriminate|exact Hc].
      * intros e' E'. congruence.
      * unfold del_next. destruct (f || false || q) eqn:X; [discriminate|]. intros _ _. apply orb_false_elim in X. destruct X as [_ ->]. auto.
      * intros p r'. rewrite zm_get_del by apply (k_alloct _ _ _ _ _ _ I). destruct (Z.eqb_spec p (d_pba (e_drp e))) as [->|Np]; [discriminate|].
        intros E. destruct (Z.eq_dec r' r) as [->|N]; [|right; left; auto].
        destruct (ex_own _ _ _ _ _ _ _ _ p I Et E) as [X|[(e' & Ee' & Ep)|X]]; [now left|cbn [task_rid] in Ee'; congruence|congruence].
    + (* ridt *)
      destruct q; [|eexists _, _, base; split; [reflexivity|]; now apply CInv_idle].
      eexists _, _, base. split; [reflexivity|].
      apply (CInv_step s ts base mall m used i _ _ _ _ I Et); cbn [set_ridt dd ridt alloct icache next_rid task_rid]; auto.
      * apply zm_ok_del, (k_ridt _ _ _ _ _ _ I).
      * apply (k_alloct _ _ _ _ _ _ I).
      * apply (k_icache _ _ _ _ _ _ I).
      * apply (k_dcache _ _ _ _ _ _ I).
      * apply (k_full _ _ _ _ _ _ I).
      * exists cl, tr. eapply Store_perm; [exact ST|]. apply Permutation_app_head. rewrite PP. unfold del_next.
        destruct f; cbn [part orb opart app]; [reflexivity|]. destruct a; reflexivity.
      * intros r' N. rewrite zm_get_del by apply (k_ridt _ _ _ _ _ _ I). now replace (r' =? r) with false by lia.
      * intros r' b X. split; [exact X|]. intros ->. congruence.
      * intros j u _ _. destruct u as [|? ? ? [|] ?| | | |]; exact Logic.I || reflexivity.
      * intros r' e' N E'. now apply (k_ent _ _ _ _ _ _ I).
      * unfold del_next. destruct (f || a || false) eqn:X; [|discriminate]. intros t' Y. injection Y as <-.
        split; [reflexivity|]. split; [reflexivity|]. split; [exact TN|]. cbn [dd set_ridt dcl ridt alloct icache].
        split; [assumption|]. split; [assumption|]. rewrite zm_get_del by apply (k_ridt _ _ _ _ _ _ I). rewrite Z.eqb_refl. auto.
      * intros e' E'. congruence.
      * intros _ _. rewrite zm_get_del by apply (k_ridt _ _ _ _ _ _ I). rewrite Z.eqb_refl. auto.
      * intros p r' E. destruct (Z.eq_dec r' r) as [->|N]; [|right; left; auto].
        destruct (ex_own _ _ _ _ _ _ _ _ p I Et E) as [X|[(e' & Ee' & Ep)|X]]; [now left|cbn [task_rid] in Ee'; congruence|].
        destruct a; [|contradiction]. right; right. split; [reflexivity|]. right. unfold del_next. rewrite orb_true_r. cbn [orb]. eexists. split; [reflexivity|]. cbn. auto.
  - (* TMov0 *)
    destruct T as (Htx & e & Ee & Ez). destruct (k_ent _ _ _ _ _ _ I r e Ee) as (A & B & C & D & F). rewrite A. cbn [obind].
    eexists _, _, base. split; [reflexivity|].
    apply (CInv_step s ts base mall m used i _ _ _ _ I Et); cbn [task_rid]; auto;
      try apply (k_ridt _ _ _ _ _ _ I); try apply (k_alloct _ _ _ _ _ _ I); try apply (k_icache _ _ _ _ _ _ I);
      try apply (k_dcache _ _ _ _ _ _ I); try apply (k_full _ _ _ _ _ _ I).
    + exists cl, tr. eapply Store_perm; [exact ST|]. apply Permutation_app_head. rewrite PP. reflexivity.
    + intros r' b X. split; [exact X|]. intros ->. congruence.
    + intros j u _ _. destruct u as [|? ? ? [|] ?| | | |]; exact Logic.I || reflexivity.
    + intros r' e' N E'. now apply (k_ent _ _ _ _ _ _ I).
    + intros t' X. injection X as <-. repeat split; auto; lia.
    + intros e' E'. assert (e' = e) by congruence. subst e'. repeat (split; [assumption|]). split; [|discriminate].
      intros _. apply F. intros j u Ej Eu. destruct (Z.eq_dec j i) as [->|Nj].
      * assert (u = TMov0 r txg) by congruence. subst u. reflexivity.
      * exfalso. now apply (OTH j u Nj Ej).
    + discriminate.
    + intros p r' E. destruct (Z.eq_dec r' r) as [->|N]; [|right; left; auto].
      destruct (ex_own _ _ _ _ _ _ _ _ p I Et E) as [X|[X|[]]]; [now left|]. right; right. split; [reflexivity|]. left. exact X.
  - (* TMov1 *)
    destruct T as (Htx & Ee & Ez). destruct (k_ent _ _ _ _ _ _ I r e Ee) as (A & B & C & D & F).
    assert (Hm : m r = Some (value mall r)).
    { apply F. intros j u Ej Eu. destruct (Z.eq_dec j i) as [->|Nj].
      - assert (u = TMov1 r txg e) by congruence. subst u. reflexivity.
      - exfalso. now apply (OTH j u Nj Ej). }
    destruct (copy_spec s _ cl tr r e (value mall r) txg ST (k_dcache _ _ _ _ _ _ I) (in_base _ _ _ _ _ _ _ _ I Ee)) as (d1 & y & EM & EC & FU & W1 & W2 & o & R).
    { intros x X. now apply (k_cache _ _ _ _ _ _ I) in X. }
    { exact Htx. }
    rewrite EM. cbn [obind]. destruct y as [n|x].
    + destruct R as (ST' & NW). eexists _, _, (zm_del r base). split; [reflexivity|].
      assert (NA : zm_get (d_pba n) (alloct s) = None).
      { destruct (zm_get (d_pba n) (alloct s)) eqn:X; [|reflexivity]. exfalso. apply NW. eapply alloct_wrote; eauto. }
      apply (CInv_step s ts base mall m used i _ _ _ _ I Et); cbn [set_dd dd ridt alloct icache next_rid task_rid]; auto.
      * now apply zm_ok_del.
      * apply (k_ridt _ _ _ _ _ _ I).
      * apply (k_alloct _ _ _ _ _ _ I).
      * apply (k_icache _ _ _ _ _ _ I).
      * apply FU, (k_full _ _ _ _ _ _ I).
      * exists false, (tr ++ o). eapply Store_perm; [exact ST'|]. rewrite PP. cbn [part opart app].
        rewrite (recs_split base mall r e Ob Ee). cbn [app]. rewrite perm_swap.
        rewrite (Permutation_middle (recs (zm_del r base) mall)). rewrite (Permutation_middle (recs (zm_del r base) mall)). reflexivity.
      * intros r' N. rewrite zm_get_del by exact Ob. now replace (r' =? r) with false by lia.
      * intros r' b X. split; [exact X|]. intros ->. congruence.
      * intros j u _ _. destruct u as [|? ? ? [|] ?| | | |]; exact Logic.I || reflexivity.
      * intros r' e' N E'. now apply (k_ent _ _ _ _ _ _ I).
      * intros t' X. injection X as <-. split; [reflexivity|]. split; [reflexivity|]. split; [exact TN|].
        cbn [set_dd dd ridt alloct]. rewrite zm_get_del by exact Ob. rewrite Z.eqb_refl. repeat (split; [assumption || reflexivity|]). assumption.
      * intros e'. rewrite zm_get_del by exact Ob. rewrite Z.eqb_refl. discriminate.
      * discriminate.
      * intros p r' E. destruct (Z.eq_dec r' r) as [->|N]; [|right; left; auto].
        destruct (ex_own _ _ _ _ _ _ _ _ p I Et E) as [X|[(e' & Ee' & Ep)|[]]]; [now left|]. cbn [task_rid] in Ee'.
        left. assert (e' = e) by congruence. subst e'. now subst p.
    + eexists _, _, base. split; [reflexivity|].
      apply (CInv_step s ts base mall m used i _ _ _ _ I Et); cbn [set_dd dd ridt alloct icache next_rid task_rid]; auto.
      * apply (k_ridt _ _ _ _ _ _ I).
      * apply (k_alloct _ _ _ _ _ _ I).
      * apply (k_icache _ _ _ _ _ _ I).
      * apply FU, (k_full _ _ _ _ _ _ I).
      * exists false, (tr ++ o). eapply Store_perm; [exact R|]. rewrite PP. reflexivity.
      * intros r' b X. split; [exact X|]. intros ->. congruence.
      * intros j u _ _. destruct u as [|? ? ? [|] ?| | | |]; exact Logic.I || reflexivity.
      * intros r' e' N E'. now apply (k_ent _ _ _ _ _ _ I).
      * discriminate.
      * intros e' E'. assert (e' = e) by congruence. subst e'. auto.
      * congruence.
      * intros p r' E. destruct (Z.eq_dec r' r) as [->|N]; [|right; left; auto].
        destruct (ex_own _ _ _ _ _ _ _ _ p I Et E) as [X|[X|[]]]; [now left|]. right; right. split; [reflexivity|]. left. exact X.
  - (* TMov2 *)
    destruct T as (Hm & Hb & Hr & Hf & Hzn & Hn). cbn [part] in PP.
    destruct (rec_kept _ _ _ _ _ _ (e_drp e) (value mall r) I) as [KE _].
    { eapply in_part; [exact I|exact Et|]. now left. }
    destruct (dd s) as [c dk ch0] eqn:ED. pose proof (k_dcache _ _ _ _ _ _ I) as DC. rewrite ED in DC. cbn [dcl disk dcache] in *. subst ch0.
    assert (P2 : Permutation (recs base mall ++ parts mall ts) ((e_drp e, value mall r) :: recs base mall ++ (n, value mall r) :: parts mall (zm_del i ts))).
    { rewrite PP. cbn [app]. symmetry. apply Permutation_middle. }
    destruct (free_spec K v junk G c dk _ _ cl tr (e_drp e) (value mall r) [] ST P2) as (c' & EF & ST' & FU).
    assert (IN : In (e_drp e, value mall r) (recs base mall ++ parts mall ts)).
    { eapply Permutation_in; [apply Permutation_sym; exact P2|now left]. }
    destruct (free_wrote c dk _ cl tr (e_drp e) (value mall r) [] _ ST IN EF) as (D1 & W1).
    rewrite EF. cbn [obind dcl disk] in *. eexists _, _, base. split; [reflexivity|].
    apply (CInv_step s ts base mall m used i _ _ _ _ I Et); cbn [set_dd dd ridt alloct icache next_rid task_rid dcl disk dcache]; rewrite ?ED; cbn [dcl disk]; auto.
    + apply (k_ridt _ _ _ _ _ _ I).
    + apply (k_alloct _ _ _ _ _ _ I).
    + apply (k_icache _ _ _ _ _ _ I).
    + apply FU. pose proof (k_full _ _ _ _ _ _ I) as X. rewrite ED in X. exact X.
    + exists false, tr. exact ST'.
    + intros r' b X. split; [exact X|]. intros ->. congruence.
    + intros j u _ _. destruct u as [|? ? ? [|] ?| | | |]; exact Logic.I || reflexivity.
    + intros r' e' N E'. now apply (k_ent _ _ _ _ _ _ I).
    + intros t' X. injection X as <-. split; [reflexivity|]. split; [reflexivity|]. split; [exact TN|].
      cbn [set_dd dd ridt alloct dcl disk]. repeat (split; [assumption|]). destruct KE as [K1 K2]. split; [exact K1|auto].
    + congruence.
    + discriminate.
    + intros p r' E. destruct (Z.eq_dec r' r) as [->|N]; [|right; left; auto].
      destruct (ex_own _ _ _ _ _ _ _ _ p I Et E) as [X|[(e' & Ee' & Ep)|[]]]; [now left|]. cbn [task_rid] in Ee'. congruence.
  - (* TMov3 *)
    destruct T as (Hm & Hb & Hr & Hf & Hn & KE). cbn [part] in PP.
    assert (OK1 : zm_ok (zm_set r (mkentry n 1) base)) by now apply zm_ok_set.
    assert (BS : Permutation (recs (zm_set r (mkentry n 1) base) mall) ((n, value mall r) :: recs base mall)).
    { rewrite recs_set by exact Ob. cbn [e_drp]. now rewrite zm_del_none. }
    destruct ch.
    + eexists _, _, base; split; [reflexivity|]; now apply CInv_idle.
    + (* alloct *)
      destruct a; [|eexists _, _, base; split; [reflexivity|]; now apply CInv_idle].
      eexists _, _, (if q then base else zm_set r (mkentry n 1) base). split; [reflexivity|].
      apply (CInv_step s ts base mall m used i _ _ _ _ I Et); cbn [set_alloct dd ridt alloct icache next_rid task_rid]; auto.
      * destruct q; assumption.
      * apply (k_ridt _ _ _ _ _ _ I).
      * apply zm_ok_set, (k_alloct _ _ _ _ _ _ I).
      * apply (k_icache _ _ _ _ _ _ I).
      * apply (k_dcache _ _ _ _ _ _ I).
      * apply (k_full _ _ _ _ _ _ I).
      * exists cl, tr. eapply Store_perm; [exact ST|]. rewrite PP. unfold mov_next.
        destruct q; cbn [part orb opart app]; [reflexivity|]. rewrite BS. cbn [app]. symmetry. apply Permutation_middle.
      * intros r' N. split; [|reflexivity]. destruct q; [reflexivity|]. rewrite zm_get_set by exact Ob. now replace (r' =? r) with false by lia.
      * intros r' b X. split; [exact X|]. intros ->. congruence.
      * intros j u N Eu. assert (OT := OTH j u N Eu). pose proof (k_task _ _ _ _ _ _ I j u Eu) as [_ TU].
        destruct u as [|r' e' f' [|] q'| | |r' e' n'|r' e' n' q' a']; try exact Logic.I; cbn [task_rid] in OT;
          rewrite zm_get_set by apply (k_alloct _ _ _ _ _ _ I).
        -- destruct (Z.eqb_spec (d_pba (e_drp e')) (d_pba n)) as [X|]; [|reflexivity]. exfalso.
           destruct TU as (_ & _ & _ & TU & _). destruct (TU eq_refl) as [TU1 _]. congruence.
        -- destruct (Z.eqb_spec (d_pba n') (d_pba n)) as [X|]; [|reflexivity]. exfalso.
           eapply (pba_parts s ts base mall m used j i _ _ n' n); [exact I|auto|exact Eu|exact Et|right; now left|now left|exact X].
        -- destruct (Z.eqb_spec (d_pba n') (d_pba n)) as [X|]; [|reflexivity]. exfalso.
           eapply (pba_parts s ts base mall m used j i _ _ n' n); [exact I|auto|exact Eu|exact Et|now left|now left|exact X].
      * intros r' e' N E'. destruct (k_ent _ _ _ _ _ _ I r' e' E') as (_ & X & _).
        rewrite zm_get_set by apply (k_alloct _ _ _ _ _ _ I). destruct (Z.eqb_spec (d_pba (e_drp e')) (d_pba n)) as [Y|]; [|exact X]. congruence.
      * unfold mov_next. destruct q; [|discriminate]. cbn [orb]. intros t' Y. injection Y as <-.
        split; [reflexivity|]. split; [reflexivity|]. split; [exact TN|]. cbn [dd set_alloct dcl ridt alloct icache].
        repeat (split; [assumption|]). split; [|exact KE]. rewrite zm_get_set by apply (k_alloct _ _ _ _ _ _ I). now rewrite Z.eqb_refl.
      * intros e' E'. destruct q; [congruence|]. rewrite zm_get_set in E' by exact Ob. rewrite Z.eqb_refl in E'. injection E' as <-.
        split; [exact Hr|]. cbn [e_drp e_ref]. rewrite zm_get_set by apply (k_alloct _ _ _ _ _ _ I). rewrite Z.eqb_refl. auto.
      * unfold mov_next. destruct q; [discriminate|]. rewrite zm_get_set by exact Ob. rewrite Z.eqb_refl. discriminate.
      * intros p r'. rewrite zm_get_set by apply (k_alloct _ _ _ _ _ _ I). destruct (Z.eqb_spec p (d_pba n)) as [->|Np].
        -- intros X. injection X as <-. right; right. split; [reflexivity|]. destruct q.
           ++ right. eexists. split; [reflexivity|]. cbn. auto.
           ++ left. exists (mkentry n 1). rewrite zm_get_set by exact Ob. rewrite Z.eqb_refl. auto.
        -- intros E. destruct (Z.eq_dec r' r) as [->|N]; [|right; left; auto].
           destruct (ex_own _ _ _ _ _ _ _ _ p I Et E) as [X|[(e' & Ee' & Ep)|[]]]; [now left|]. cbn [task_rid] in Ee'. congruence.
    + (* ridt *)
      destruct q; [|eexists _, _, base; split; [reflexivity|]; now apply CInv_idle].
      rewrite Hf. eexists _, _, (if a then base else zm_set r (mkentry n 1) base). split; [reflexivity|].
      apply (CInv_step s ts base mall m used i _ _ _ _ I Et); cbn [set_ridt dd ridt alloct icache next_rid task_rid]; auto.
      * destruct a; assumption.
      * apply zm_ok_set, (k_ridt _ _ _ _ _ _ I).
      * apply (k_alloct _ _ _ _ _ _ I).
      * apply (k_icache _ _ _ _ _ _ I).
      * apply (k_dcache _ _ _ _ _ _ I).
      * apply (k_full _ _ _ _ _ _ I).
      * exists cl, tr. eapply Store_perm; [exact ST|]. rewrite PP. unfold mov_next.
        destruct a; cbn [part orb opart app]; [reflexivity|]. rewrite BS. cbn [app]. symmetry. apply Permutation_middle.
      * intros r' N. rewrite zm_get_set by apply (k_ridt _ _ _ _ _ _ I). replace (r' =? r) with false by lia. split; [|reflexivity].
        destruct a; [reflexivity|]. rewrite zm_get_set by exact Ob. now replace (r' =? r) with false by lia.
      * intros r' b X. split; [exact X|]. intros ->. rewrite zm_get_set by apply (k_ridt _ _ _ _ _ _ I). rewrite Z.eqb_refl. discriminate.
      * intros j u _ _. destruct u as [|? ? ? [|] ?| | | |]; exact Logic.I || reflexivity.
      * intros r' e' N E'. now apply (k_ent _ _ _ _ _ _ I).
      * unfold mov_next. destruct a; [|discriminate]. cbn [orb]. intros t' Y. injection Y as <-.
        split; [reflexivity|]. split; [reflexivity|]. split; [exact TN|]. cbn [dd set_ridt dcl ridt alloct icache].
        split; [assumption|]. split; [assumption|]. rewrite zm_get_set by apply (k_ridt _ _ _ _ _ _ I). rewrite Z.eqb_refl. auto.
      * intros e' E'. destruct a; [congruence|]. rewrite zm_get_set in E' by exact Ob. rewrite Z.eqb_refl in E'. injection E' as <-.
        rewrite zm_get_set by apply (k_ridt _ _ _ _ _ _ I). rewrite Z.eqb_refl. cbn [e_drp e_ref]. auto.
      * unfold mov_next. destruct a; [discriminate|]. rewrite zm_get_set by exact Ob. rewrite Z.eqb_refl. discriminate.
      * intros p r' E. destruct (Z.eq_dec r' r) as [->|N]; [|right; left; auto].
        destruct (ex_own _ _ _ _ _ _ _ _ p I Et E) as [X|[(e' & Ee' & Ep)|X]]; [now left|cbn [task_rid] in Ee'; congruence|].
        destruct a; [contradiction|]. right; right. split; [reflexivity|]. left. exists (mkentry n 1). rewrite zm_get_set by exact Ob. rewrite Z.eqb_refl. auto.
Qed.

(** ** Other events *)

Lemma CInv_spawn s ts base mall m m' used i t : CInv s ts base mall m used -> zm_get i ts = None ->
  (forall j u, zm_get j ts = Some u -> task_rid u <> task_rid t) ->
  part mall t = [] -> (exists e, zm_get (task_rid t) base = Some e) ->
  (forall r, r <> task_rid t -> m' r = m r) -> (isdel t = false -> m' (task_rid t) = m (task_rid t)) ->
  match t with TDel _ _ _ _ _ | TMov3 _ _ _ _ _ => False | _ => True end ->
  TI s base mall m' t -> CInv s (zm_set i t ts) base mall m' used.
Proof.
  intros I Ei D P (e0 & E0) Hm Hm2 HT T. pose proof (k_ts _ _ _ _ _ _ I) as Ots.
  assert (NEW : forall j u, zm_get j (zm_set i t ts) = Some u -> (j = i /\ u = t) \/ (j <> i /\ zm_get j ts = Some u /\ task_rid u <> task_rid t)).
  { intros j u E. rewrite zm_get_set in E by exact Ots. destruct (Z.eqb_spec j i) as [->|N]; [left; split; congruence|].
    right. split; [exact N|]. split; [exact E|]. eapply D; eauto. }
  assert (OLD : forall j u, zm_get j ts = Some u -> zm_get j (zm_set i t ts) = Some u).
  { intros j u E. rewrite zm_get_set by exact Ots. destruct (Z.eqb_spec j i) as [->|N]; congruence. }
  destruct (k_store _ _ _ _ _ _ I) as (cl & tr & ST).
  constructor; try apply I.
  - now apply zm_ok_set.
  - exists cl, tr. eapply Store_perm; [exact ST|]. apply Permutation_app_head.
    rewrite (parts_perm _ _ _ (zm_set_perm i t ts Ots)). unfold parts at 2. cbn [flat_map snd]. rewrite P. cbn [app].
    now rewrite zm_del_none.
  - intros j1 j2 t1 t2 E1 E2 ER. destruct (NEW _ _ E1) as [(-> & ->)|(N1 & F1 & X1)], (NEW _ _ E2) as [(-> & ->)|(N2 & F2 & X2)]; try congruence.
    eapply (k_dist _ _ _ _ _ _ I); eauto.
  - intros j u E. destruct (NEW _ _ E) as [(-> & ->)|(N & F & X)]; [exact T|].
    pose proof (k_task _ _ _ _ _ _ I j u F) as [TN TU]. split; [exact TN|].
    destruct u as [r|r e f a q|r txg|r txg e|r e n|r e n q a]; cbn [task_rid] in X; try rewrite (Hm r X); exact TU.
  - intros r e E. destruct (k_ent _ _ _ _ _ _ I r e E) as (A & B & C & F & H). repeat (split; [assumption|]).
    intros ND. destruct (Z.eq_dec r (task_rid t)) as [->|N].
    + rewrite Hm2; [|apply (ND i t); [|reflexivity]; rewrite zm_get_set by exact Ots; now rewrite Z.eqb_refl].
      apply H. intros j u Ej Eu. exfalso. eapply D; eauto.
    + rewrite Hm by exact N. apply H. intros j u Ej Eu. eapply ND; [apply OLD; exact Ej|exact Eu].
  - intros r E ND. assert (r <> task_rid t) by congruence. rewrite Hm by assumption. apply (k_none _ _ _ _ _ _ I r E).
    intros j u Ej. apply (ND j u). now apply OLD.
  - intros p r E. destruct (k_ex _ _ _ _ _ _ I p r E) as [X|[X|(j & u & Ej & X)]]; [now left|right; now left|].
    right; right. exists j, u. split; [now apply OLD|exact X].
Qed.

Lemma CInv_get s ts base mall m used r : CInv s ts base mall m used ->
  (forall i t, zm_get i ts = Some t -> task_rid t = r -> isdel t = false) ->
  exists s', idml_get K r s = Some (s', match m r with Some b => Ok b | None => Err ENOENT end) /\ CInv s' ts base mall m used.
Proof.
  intros I ND.
  (* either the id is known, with its contents on disk, or it is not *)
  assert (CASES : (m r = Some (value mall r) /\ exists e, zm_get r (ridt s) = Some e /\ content K (disk (dd s)) (e_drp e, value mall r)) \/
                  (m r = None /\ zm_get r (ridt s) = None)).
  { destruct (zm_get r base) as [e|] eqn:Eb.
    - left. destruct (k_ent _ _ _ _ _ _ I r e Eb) as (A & _ & _ & _ & F). split; [now apply F|]. exists e. split; [exact A|].
      eapply rec_kept; [exact I|]. eapply in_base; eauto.
    - destruct (existsb (fun q => task_rid (snd q) =? r) ts) eqn:X.
      + left. apply existsb_exists in X. destruct X as ([i t] & Hi & X). cbn [snd] in X. apply Z.eqb_eq in X.
        apply zm_in_get in Hi; [|apply (k_ts _ _ _ _ _ _ I)]. specialize (ND i t Hi X). subst r.
        pose proof (k_task _ _ _ _ _ _ I i t Hi) as [_ T]. destruct t as [r|r e f a q|r txg|r txg e|r e n|r e n q a]; cbn [task_rid isdel] in *; try discriminate.
        * destruct T as (_ & e & Ee & _). congruence.
        * destruct T as (_ & Ee & _). congruence.
        * destruct T as (Hm & _ & Hr & _). split; [exact Hm|]. exists e. split; [exact Hr|].
          eapply rec_kept; [exact I|]. eapply in_part; [exact I|exact Hi|]. now left.
        * destruct T as (Hm & _ & Hr & _ & _ & KE). split; [exact Hm|]. eexists. split; [exact Hr|]. destruct q; [apply KE|].
          cbn [e_drp]. eapply rec_kept; [exact I|]. eapply in_part; [exact I|exact Hi|]. now left.
      + right. apply and_comm. apply (k_none _ _ _ _ _ _ I r Eb). intros i t Hi Y.
        assert (existsb (fun q => task_rid (snd q) =? r) ts = true); [|congruence].
        apply existsb_exists. exists (i, t). split; [now apply zm_get_in|]. cbn [snd]. lia. }
  unfold idml_get. destruct (zm_get r (icache s)) as [b|] eqn:EC.
  - destruct (k_cache _ _ _ _ _ _ I r b EC) as [-> NN]. destruct CASES as [(Hm & _)|(_ & X)]; [|congruence].
    rewrite Hm. exists s. auto.
  - destruct CASES as [(Hm & e & Ee & CT)|(Hm & X)].
    + rewrite Ee, Hm. unfold get_direct.
      assert (RB : read_blocks K (e_drp e) (dd s) = Some (Ok (value mall r))).
      { destruct (dd s) as [c dk ch]. cbn [disk] in CT. exact (content_read K dk c ch _ CT). }
      rewrite RB. cbn [obind]. eexists. split; [reflexivity|].
      pose proof (k_icache _ _ _ _ _ _ I) as OI.
      constructor; cbn [set_icache dd ridt alloct icache next_rid]; try apply I.
      * now apply zm_ok_set.
      * intros i t Hi. pose proof (k_task _ _ _ _ _ _ I i t Hi) as T.
        destruct (Z.eq_dec (task_rid t) r) as [E|N].
        -- specialize (ND i t Hi E). destruct t; cbn [isdel] in ND; try discriminate; exact T.
        -- eapply TI_frame; [exact T|..]; cbn [set_icache dd ridt alloct icache next_rid]; auto; [lia| |].
           ++ intros X. rewrite zm_get_set by exact OI. now replace (task_rid t =? r) with false by lia.
           ++ destruct t as [|? ? ? [|] ?| | | |]; exact Logic.I || reflexivity.
      * intros r' b. rewrite zm_get_set by exact OI. destruct (Z.eqb_spec r' r) as [->|]; [|apply (k_cache _ _ _ _ _ _ I)].
        intros Y; injection Y as <-. split; [reflexivity|congruence].
    + rewrite X, Hm. eauto.
Qed.

Lemma value_set mall r b r' : zm_ok mall -> value (zm_set r b mall) r' = if r' =? r then b else value mall r'.
Proof. intros O. unfold value. rewrite zm_get_set by exact O. now destruct (r' =? r). Qed.

Lemma CInv_put s ts base mall m used b c txg : CInv s ts base mall m used -> comp_ok c -> 0 < zlen b < U32MAX -> 0 <= txg < TXG_MAX ->
  exists s' x, idml_put K v junk b c txg s = Some (s', x) /\
  match x with
  | Err e => e = ENOSPC /\ CInv s' ts base mall m used
  | Ok r => ~ In r used /\ m r = None /\
      exists base', CInv s' ts base' (zm_set r b mall) (fun k => if k =? r then Some b else m k) (r :: used)
  end.
Proof.
  intros I C L T. destruct (k_store _ _ _ _ _ _ I) as (cl & tr & ST). unfold idml_put, put_direct. cbn [dd].
  pose proof (k_dcache _ _ _ _ _ _ I) as DC. pose proof (k_full _ _ _ _ _ _ I) as FZ. destruct (dd s) as [c0 dk ch] eqn:ED. cbn [dcl disk dcache] in *. subst ch.
  destruct (put_spec K v junk OK G c0 dk _ cl tr b c txg [] ST C L T) as (d' & x & E & EC & FU & o & R).
  destruct (put_wrote c0 dk _ cl tr b c txg [] d' x ST L C T E) as (W1 & W2 & W3).
  rewrite E. cbn [obind]. set (r := next_rid s).
  assert (NB : zm_get r base = None).
  { destruct (zm_get r base) as [e|] eqn:X; [|reflexivity]. pose proof (k_ent _ _ _ _ _ _ I r e X) as (_ & _ & _ & Y & _). unfold r in Y. lia. }
  assert (NT : forall i t, zm_get i ts = Some t -> task_rid t <> r).
  { intros i t X. pose proof (k_task _ _ _ _ _ _ I i t X) as [Y _]. unfold r. lia. }
  destruct (k_none _ _ _ _ _ _ I r NB NT) as [NR NM].
  assert (FRAME : forall i t base' mall' m' al ri ca, zm_get i ts = Some t ->
    zm_get (task_rid t) base' = zm_get (task_rid t) base -> m' (task_rid t) = m (task_rid t) ->
    zm_get (task_rid t) ri = zm_get (task_rid t) (ridt s) -> zm_get (task_rid t) ca = zm_get (task_rid t) (icache s) ->
    value mall' (task_rid t) = value mall (task_rid t) ->
    (forall p, wrote c0 p -> zm_get p al = zm_get p (alloct s)) ->
    TI (mkidml d' ri al (r + 1) ca) base' mall' m' t).
  { intros i t base' mall' m' al ri ca Hi H1 H2 H3 H4 H5 H6. pose proof (k_task _ _ _ _ _ _ I i t Hi) as TU.
    eapply TI_frame; [exact TU|..]; cbn [dd ridt alloct icache next_rid]; rewrite ?ED; cbn [dcl disk]; auto.
    - unfold r. lia.
    - congruence.
    - destruct TU as [_ TU]. destruct t as [|r' e' f' [|] q'| | |r' e' n'|r' e' n' q' a']; try exact Logic.I; apply H6.
      + destruct TU as (_ & _ & _ & TU & _). rewrite ED in TU. now apply TU.
      + pose proof (rec_kept s ts base mall m used n' (value mall r') I) as KP. rewrite ED in KP. apply KP.
        eapply in_part; [exact I|exact Hi|]. right. now left.
      + pose proof (rec_kept s ts base mall m used n' (value mall r') I) as KP. rewrite ED in KP. apply KP.
        eapply in_part; [exact I|exact Hi|]. now left. }
  destruct x as [d|e].
  - destruct R as (S' & _ & _ & _). cbn [ridt alloct set_dd next_rid icache dd]. fold r.
    assert (NW : ~ wrote c0 (d_pba d)).
    { eapply W3; [reflexivity|]. pose proof (rec_pos _ _ _ _ _ _ _ S' (or_introl eq_refl)). lia. }
    assert (NA : zm_get (d_pba d) (alloct s) = None).
    { destruct (zm_get (d_pba d) (alloct s)) eqn:X; [|reflexivity]. exfalso. apply NW.
      pose proof (alloct_wrote s ts base mall m used (d_pba d) z0 I X) as Y. rewrite ED in Y. exact Y. }
    unfold zm_mem. rewrite NR, NA. cbn [negb oassert]. eexists _, (Ok r). split; [reflexivity|].
    split; [intros X; apply (k_used _ _ _ _ _ _ I) in X; unfold r in X; lia|]. split; [exact NM|].
    exists (zm_set r (mkentry d 1) base). pose proof (k_base _ _ _ _ _ _ I) as Ob. pose proof (k_mall _ _ _ _ _ _ I) as Om.
    assert (NEB : forall r' e, zm_get r' base = Some e -> r' <> r) by congruence.
    constructor; cbn [dd ridt alloct icache next_rid].
    + now apply zm_ok_set.
    + apply zm_ok_set, I.
    + apply zm_ok_set, I.
    + apply zm_ok_set, I.
    + now apply zm_ok_set.
    + apply I.
    + exact EC.
    + now apply FU.
    + exists false, (tr ++ o). eapply Store_perm; [exact S'|]. rewrite recs_set by exact Ob. cbn [e_drp app].
      rewrite zm_del_none by auto. rewrite value_set by exact Om. rewrite Z.eqb_refl. constructor.
      replace (recs base (zm_set r b mall)) with (recs base mall).
      * apply Permutation_app_head. replace (parts (zm_set r b mall) ts) with (parts mall ts); [reflexivity|].
        unfold parts. rewrite !flat_map_concat_map. f_equal. apply map_ext_in. intros [i t] Hi. cbn [snd].
        apply zm_in_get in Hi; [|apply I]. pose proof (NT i t Hi) as X.
        destruct t; cbn [part task_rid] in *; rewrite ?value_set by exact Om; try replace (rid =? r) with false by lia; reflexivity.
      * apply recs_ext. intros r' Hr'. rewrite value_set by exact Om.
        destruct (Z.eqb_spec r' r) as [->|]; [|reflexivity]. exfalso.
        apply in_map_iff in Hr'. destruct Hr' as ([r' e] & Er & Hr'). cbn in Er. subst r'. apply zm_in_get in Hr'; [congruence|exact Ob].
    + apply (k_dist _ _ _ _ _ _ I).
    + intros i t Hi. pose proof (NT i t Hi) as X. apply (FRAME i t); auto.
      * rewrite zm_get_set by exact Ob. now replace (task_rid t =? r) with false by lia.
      * now replace (task_rid t =? r) with false by lia.
      * rewrite zm_get_set by apply I. now replace (task_rid t =? r) with false by lia.
      * rewrite zm_get_set by apply I. now replace (task_rid t =? r) with false by lia.
      * rewrite value_set by exact Om. now replace (task_rid t =? r) with false by lia.
      * intros p Wp. rewrite zm_get_set by apply I. destruct (Z.eqb_spec p (d_pba d)) as [->|]; [contradiction|reflexivity].
    + intros r' e'. rewrite zm_get_set by exact Ob. rewrite zm_get_set by apply I. rewrite zm_get_set by apply I. destruct (Z.eqb_spec r' r) as [->|N].
      * intros X; injection X as <-. cbn [e_drp e_ref]. rewrite Z.eqb_refl. repeat (split; [reflexivity|]). split; [lia|].
        intros _. rewrite value_set by exact Om. now rewrite Z.eqb_refl.
      * intros X. destruct (k_ent _ _ _ _ _ _ I r' e' X) as (A & B & D & F & H). split; [exact A|]. split.
        { destruct (Z.eqb_spec (d_pba (e_drp e')) (d_pba d)) as [Y|]; [congruence|exact B]. }
        split; [exact D|]. split; [unfold r; lia|]. rewrite value_set by exact Om. now replace (r' =? r) with false by lia.
    + intros r'. rewrite zm_get_set by exact Ob. rewrite zm_get_set by apply I. destruct (Z.eqb_spec r' r) as [->|N]; [discriminate|].
      apply (k_none _ _ _ _ _ _ I).
    + intros p r'. rewrite zm_get_set by apply I. destruct (Z.eqb_spec p (d_pba d)) as [->|N].
      * intros X; injection X as <-. right; left. exists (mkentry d 1). rewrite zm_get_set by exact Ob. rewrite Z.eqb_refl. auto.
      * intros X. destruct (k_ex _ _ _ _ _ _ I p r' X) as [Y|[(e' & Ee' & Ep)|Y]]; [now left| |right; now right].
        right; left. exists e'. split; [|exact Ep]. rewrite zm_get_set by exact Ob. destruct (Z.eqb_spec r' r) as [->|]; [congruence|exact Ee'].
    + intros r' x. rewrite zm_get_set by apply I. rewrite zm_get_set by apply I. rewrite value_set by exact Om. destruct (Z.eqb_spec r' r) as [->|N].
      * intros X; injection X as <-. split; [reflexivity|discriminate].
      * apply (k_cache _ _ _ _ _ _ I).
    + intros r' [<-|X]; [lia|]. apply (k_used _ _ _ _ _ _ I) in X. unfold r. lia.
  - destruct R as (-> & S'). eexists _, (Err ENOSPC). split; [reflexivity|]. split; [reflexivity|]. unfold set_dd. cbn [dd ridt alloct icache next_rid]. fold r.
    constructor; cbn [dd ridt alloct icache next_rid]; try apply I.
    + exact EC.
    + now apply FU.
    + exists false, (tr ++ o). exact S'.
    + intros i t Hi. apply (FRAME i t); auto.
    + intros r' e' X. destruct (k_ent _ _ _ _ _ _ I r' e' X) as (A & B & D & F & H). split; [exact A|]. split; [exact B|]. split; [exact D|]. split; [unfold r; lia|exact H].
    + intros r' X. apply (k_used _ _ _ _ _ _ I) in X. unfold r. lia.
Qed.

(** At rest, before and after. *)
Lemma CInv_init s l m used : IInv K v s l (fun _ => false) -> (forall r, m r = zm_get r l) -> (forall r, In r used -> r < next_rid s) ->
  full (dcl (dd s)) z -> CInv s [] (ridt s) l m used.
Proof.
  intros I M U F. constructor; try apply I; auto; try discriminate.
  - apply zm_ok_nil.
  - destruct (ii_store _ _ _ _ _ I) as (cl & tr & S). exists cl, tr. cbn [parts flat_map]. now rewrite app_nil_r.
  - intros r e E. split; [exact E|]. split; [now apply (ii_at _ _ _ _ _ I)|]. split; [now apply (ii_ref _ _ _ _ _ I r)|].
    split; [apply (ii_next _ _ _ _ _ I); unfold zm_mem; now rewrite E|]. intros _. rewrite M. eapply m_get; eauto.
  - intros r E _. split; [exact E|]. rewrite M. pose proof (ii_dom _ _ _ _ _ I r) as D. unfold zm_mem in D. rewrite E in D.
    destruct (zm_get r l); [discriminate|reflexivity].
  - intros p r E. destruct (ii_ex _ _ _ _ _ I p r E) as [X|X]; [discriminate|]. right; now left.
  - intros r b E. apply (ii_cache _ _ _ _ _ I) in E. split; [unfold value; now rewrite E|].
    pose proof (ii_dom _ _ _ _ _ I r) as D. unfold zm_mem in D. rewrite E in D. destruct (zm_get r (ridt s)); [discriminate|discriminate].
Qed.

End Inv.
End W.
