(** C24: deleting records while a zone is being cleaned. *)
From Coq Require Import Permutation.
From Verif Require Import Common ZMap FSM_Model FSM_Spec FSM_Proofs FSM_Inv FSM_Props DDML_Model DDML_Proofs DDML_Props
  IDML_Model IDML_Proofs IDML_Props IDMLConc_Model IDMLConc_Proofs.

(** What may happen while zone [z] is being cleaned: puts and reads, deletions
    and relocations that start (under a task number) and run step by step, and
    the end of the transaction. *)
Inductive cev :=
| EPut (b : list Z) (c : compression) (txg : Z)
| EGet (r : Z)
| EDel (i r : Z)
| EMov (i r txg : Z)
| EStep (i : Z) (ch : choice)
| EAdvance.

Definition cstep K v junk (s : idml) (ts : list (Z * task)) (ev : cev) : option (idml * list (Z * task) * ires) :=
  match ev with
  | EPut b c txg => let* (s, r) := idml_put K v junk b c txg s in Some (s, ts, IRid r)
  | EGet r => let* (s, x) := idml_get K r s in Some (s, ts, IData x)
  | EDel i r => Some (s, zm_set i (TDel0 r) ts, INone)
  | EMov i r txg => Some (s, zm_set i (TMov0 r txg) ts, INone)
  | EStep i ch =>
      match zm_get i ts with
      | None => Some (s, ts, INone)
      | Some t => let* (s, o) := task_step K v junk ch t s in Some (s, upd i o ts, INone)
      end
  | EAdvance => Some (idml_advance v junk s, ts, INone)
  end.

(** The record is gone for the specification as soon as its deletion starts. *)
Definition cstore_next (m : store) (ev : cev) (x : ires) : store :=
  match ev, x with
  | EPut b _ _, IRid (Ok r) => fun k => if k =? r then Some b else m k
  | EDel _ r, _ => fun k => if k =? r then None else m k
  | _, _ => m
  end.

Definition cused_next (used : list Z) (ev : cev) (x : ires) : list Z :=
  match ev, x with EPut _ _ _, IRid (Ok r) => r :: used | _, _ => used end.

(** Clients read no record they are deleting, and delete a record once; the
    cleaner relocates records of the zone. *)
Definition clegal (v : vdev) (z : Z) (s : idml) (ts : list (Z * task)) (m : store) (ev : cev) : Prop :=
  match ev with
  | EPut b c txg => 0 < zlen b < U32MAX /\ comp_ok c /\ 0 <= txg < TXG_MAX
  | EGet r => forall i t, zm_get i ts = Some t -> task_rid t = r -> isdel t = false
  | EDel i r => zm_get i ts = None /\ m r <> None
  | EMov i r txg => zm_get i ts = None /\ 0 <= txg < TXG_MAX /\
      exists e, zm_get r (ridt s) = Some e /\ fst (v_lim v z) <= d_pba (e_drp e) < snd (v_lim v z)
  | _ => True
  end.

Definition canswer (m : store) (used : list Z) (ev : cev) (x : ires) : Prop :=
  match ev with
  | EPut _ _ _ => x = IRid (Err ENOSPC) \/ exists r, x = IRid (Ok r) /\ ~ In r used /\ m r = None
  | EGet r => x = IData (match m r with Some b => Ok b | None => Err ENOENT end)
  | _ => x = INone
  end.

(** The restriction under which it is safe: no record is deleted and relocated
    at the same time, and the transaction does not end. *)
Definition apart (ts : list (Z * task)) (ev : cev) : Prop :=
  match ev with
  | EDel _ r | EMov _ r _ => forall i t, zm_get i ts = Some t -> task_rid t <> r
  | EAdvance => False
  | _ => True
  end.

Definition anything (ts : list (Z * task)) (ev : cev) : Prop := True.

(** Executions: any history without failed cleanings, and then, with zone [z]
    closed, any sequence of events that meet [R]. *)
Inductive creach K v junk dk0 (R : list (Z * task) -> cev -> Prop) (z : Z) : idml -> list (Z * task) -> store -> list Z -> Prop :=
| creach_init s m used : ireach K v junk dk0 s m used false -> 0 <= z < v_zones v -> is_closed (fs (dcl (dd s))) z = true ->
    creach K v junk dk0 R z s [] m used
| creach_step s ts m used ev s' ts' x : creach K v junk dk0 R z s ts m used -> clegal v z s ts m ev -> R ts ev ->
    cstep K v junk s ts ev = Some (s', ts', x) ->
    creach K v junk dk0 R z s' ts' (cstore_next m ev x) (cused_next used ev x).

Section C24.
Context (K : codecs) (v : vdev) (junk dk0 : Z -> list Z).
Hypothesis OK : codecs_ok K.
Hypothesis G : geometry v.

Definition CI z s ts m used := 0 <= z < v_zones v /\ exists base mall, CInv K v z s ts base mall m used.

Lemma cstep_ok z s ts m used ev : CI z s ts m used -> clegal v z s ts m ev -> apart ts ev ->
  exists s' ts' x, cstep K v junk s ts ev = Some (s', ts', x) /\ canswer m used ev x /\
    CI z s' ts' (cstore_next m ev x) (cused_next used ev x).
Proof.
  intros (Hz & base & mall & I) L A. destruct ev as [b c txg|r|i r|i r txg|i ch|]; cbn [clegal apart cstep canswer] in *.
  - destruct L as (L1 & L2 & L3). destruct (CInv_put K v junk OK G z Hz s ts base mall m used b c txg I L2 L1 L3) as (s' & x & E & H).
    rewrite E. cbn [obind]. eexists _, _, _. split; [reflexivity|]. destruct x as [r|e].
    + destruct H as (H1 & H2 & base' & I'). split; [right; eauto|]. split; [exact Hz|]. cbn [cstore_next cused_next]. eauto.
    + destruct H as (-> & I'). split; [now left|]. split; [exact Hz|]. cbn [cstore_next cused_next]. eauto.
  - destruct (CInv_get K v junk G z s ts base mall m used r I L) as (s' & E & I'). rewrite E. cbn [obind]. eexists _, _, _.
    split; [reflexivity|]. split; [reflexivity|]. split; [exact Hz|]. cbn [cstore_next cused_next]. eauto.
  - destruct L as (Ei & Em). eexists _, _, _. split; [reflexivity|]. split; [reflexivity|]. split; [exact Hz|]. exists base, mall.
    cbn [cstore_next cused_next].
    assert (B : exists e, zm_get r base = Some e).
    { destruct (zm_get r base) as [e|] eqn:E; [eauto|]. destruct (k_none _ _ _ _ _ _ _ _ _ I r E A). contradiction. }
    eapply CInv_spawn; [exact I|exact Ei|exact A|reflexivity|exact B|..]; cbn [task_rid isdel].
    + intros k Hk. now replace (k =? r) with false by lia.
    + discriminate.
    + exact Logic.I.
    + destruct B as (e & E). split; cbn [task_rid]; [apply (k_ent _ _ _ _ _ _ _ _ _ I r e E)|]. rewrite Z.eqb_refl. eauto.
  - destruct L as (Ei & Ht & e & Ee & Ep). eexists _, _, _. split; [reflexivity|]. split; [reflexivity|]. split; [exact Hz|]. exists base, mall.
    cbn [cstore_next cused_next].
    assert (B : zm_get r base = Some e).
    { destruct (zm_get r base) as [e'|] eqn:E.
      - destruct (k_ent _ _ _ _ _ _ _ _ _ I r e' E). congruence.
      - destruct (k_none _ _ _ _ _ _ _ _ _ I r E A). congruence. }
    eapply CInv_spawn; [exact I|exact Ei|exact A|reflexivity|exists e; exact B|..]; cbn [task_rid isdel]; auto.
    split; cbn [task_rid]; [apply (k_ent _ _ _ _ _ _ _ _ _ I r e B)|]. split; [exact Ht|]. exists e. split; [exact B|].
    unfold in_zone. lia.
  - destruct (zm_get i ts) as [t|] eqn:E.
    + destruct (task_step_ok K v junk OK G z Hz s ts base mall m used i t ch I E) as (s' & o & base' & ES & I').
      rewrite ES. cbn [obind]. eexists _, _, _. split; [reflexivity|]. split; [reflexivity|]. split; [exact Hz|]. cbn [cstore_next cused_next]. eauto.
    + eexists _, _, _. split; [reflexivity|]. split; [reflexivity|]. split; [exact Hz|]. cbn [cstore_next cused_next]. eauto.
  - contradiction.
Qed.

Lemma creach_inv z s ts m used : creach K v junk dk0 apart z s ts m used -> CI z s ts m used.
Proof.
  induction 1 as [s m used R Hz C|s ts m used ev s' ts' x _ IH L A E].
  - split; [exact Hz|]. apply (ireach_inv K v junk dk0 OK G) in R. destruct R as (l & I & M & U). exists (ridt s), l.
    apply CInv_init; auto. eapply full_of_closed; eauto. lia.
  - destruct (cstep_ok _ _ _ _ _ _ IH L A) as (s1 & ts1 & x1 & E1 & _ & I1). rewrite E in E1. injection E1 as <- <- <-. exact I1.
Qed.

(** If the deletions that run during a cleaning are of other records than the
    relocations in flight, and the transaction does not end, then in every
    interleaving no step panics, and every read returns what was put.

    Missing from the full claim: a deletion and a relocation of the same record,
    for which it is false ([C24_delete_then_move_refuted],
    [C24_double_free_refuted]). *)
Theorem C24_interleavings_safe_partial z s ts m used ev :
  creach K v junk dk0 apart z s ts m used -> clegal v z s ts m ev -> apart ts ev ->
  exists s' ts' x, cstep K v junk s ts ev = Some (s', ts', x) /\ canswer m used ev x.
Proof.
  intros R L A. apply creach_inv in R. destruct (cstep_ok _ _ _ _ _ _ R L A) as (s' & ts' & x & E & H & _). eauto.
Qed.

(** Once all tasks have ended: the records are those put and not deleted; the
    blocks in use are exactly theirs, so that every record's old and new space
    was freed exactly once; and the address tables agree, except for what the
    cleaner removes next, the addresses in the cleaned zone. *)
Theorem C24_at_rest_partial z s m used' : creach K v junk dk0 apart z s [] m used' ->
  (forall r, m r <> None <-> zm_get r (ridt s) <> None) /\
  used (dcl (dd s)) = Some (fold_right (fun p a => asize (e_drp (snd p)) + a) 0 (ridt s)) /\
  (forall r e, zm_get r (ridt s) = Some e -> zm_get (d_pba (e_drp e)) (alloct s) = Some r) /\
  (forall p r, zm_get p (alloct s) = Some r -> ~ (fst (v_lim v z) <= p < snd (v_lim v z)) ->
     exists e, zm_get r (ridt s) = Some e /\ d_pba (e_drp e) = p).
Proof.
  intros R. apply creach_inv in R. destruct R as (Hz & base & mall & I).
  assert (EB : base = ridt s).
  { apply zm_ext; [apply I|apply I|]. intros r. destruct (zm_get r base) as [e|] eqn:E.
    - symmetry. apply (k_ent _ _ _ _ _ _ _ _ _ I r e E).
    - symmetry. apply (k_none _ _ _ _ _ _ _ _ _ I r E). discriminate. }
  subst base. split; [|split; [|split]].
  - intros r. destruct (zm_get r (ridt s)) as [e|] eqn:E.
    + destruct (k_ent _ _ _ _ _ _ _ _ _ I r e E) as (_ & _ & _ & _ & H). rewrite H by discriminate. split; discriminate.
    + destruct (k_none _ _ _ _ _ _ _ _ _ I r E) as [_ H]; [discriminate|]. rewrite H. split; congruence.
  - destruct (k_store _ _ _ _ _ _ _ _ _ I) as (cl & tr & ((live & P & RR) & _)).
    rewrite (C14_used_is_exact v _ _ _ _ G RR). f_equal. cbn [parts flat_map] in P. rewrite app_nil_r in P.
    assert (E : sum_len live = sum_len (map ext (recs (ridt s) mall))).
    { clear - P. induction P; unfold sum_len in *; cbn [fold_right]; try lia. }
    rewrite E. clear. unfold recs. induction (ridt s) as [|x h IH]; [reflexivity|]. cbn [map sum_len fold_right].
    unfold sum_len in IH. cbn [map fold_right] in IH. rewrite IH. reflexivity.
  - intros r e E. apply (k_ent _ _ _ _ _ _ _ _ _ I r e E).
  - intros p r E NZ. destruct (k_ex _ _ _ _ _ _ _ _ _ I p r E) as [X|[X|(i & t & Ei & _)]]; [|exact X|discriminate].
    unfold in_zone in X. lia.
Qed.

End C24.

(** Checking executions. *)
Definition clegalb (v : vdev) (z : Z) (s : idml) (ts : list (Z * task)) (m : store) (ev : cev) : bool :=
  match ev with
  | EPut b c txg => (0 <? zlen b) && (zlen b <? U32MAX) && (match c with CNone => true | _ => false end) && (0 <=? txg) && (txg <? TXG_MAX)
  | EGet r => forallb (fun q => negb ((task_rid (snd q) =? r) && isdel (snd q))) ts
  | EDel i r => negb (zm_mem i ts) && match m r with Some _ => true | None => false end
  | EMov i r txg => negb (zm_mem i ts) && (0 <=? txg) && (txg <? TXG_MAX) &&
      match zm_get r (ridt s) with None => false | Some e => (fst (v_lim v z) <=? d_pba (e_drp e)) && (d_pba (e_drp e) <? snd (v_lim v z)) end
  | _ => true
  end.

Lemma clegalb_ok v z s ts m ev : clegalb v z s ts m ev = true -> clegal v z s ts m ev.
Proof.
  destruct ev as [b c txg|r|i r|i r txg|i ch|]; cbn [clegalb clegal]; intros H; auto.
  - rewrite !andb_true_iff in H. destruct H as ((((A & B) & C) & D) & E). destruct c; try discriminate.
    split; [lia|]. split; [exact Logic.I|lia].
  - intros i t E ER. apply zm_get_in in E. rewrite forallb_forall in H. specialize (H _ E). cbn [snd] in H.
    rewrite ER, Z.eqb_refl in H. destruct (isdel t); [discriminate|reflexivity].
  - apply andb_prop in H. destruct H as [A B]. unfold zm_mem in A. destruct (zm_get i ts); [discriminate|]. destruct (m r); [|discriminate].
    split; [reflexivity|discriminate].
  - rewrite !andb_true_iff in H. destruct H as (((A & B) & C) & D). unfold zm_mem in A. destruct (zm_get i ts); [discriminate|].
    destruct (zm_get r (ridt s)) as [e|]; [|discriminate]. apply andb_prop in D. split; [reflexivity|]. split; [lia|].
    exists e. split; [reflexivity|lia].
Qed.

(** Executing legal events; [None] if one of them is not legal, or panics. *)
Fixpoint crun K v junk (rb : list (Z * task) -> cev -> bool) z (s : idml) (ts : list (Z * task)) (m : store) (used : list Z) (evs : list cev)
  : option (idml * list (Z * task) * store * list Z) :=
  match evs with
  | [] => Some (s, ts, m, used)
  | ev :: evs =>
      if clegalb v z s ts m ev && rb ts ev
      then match cstep K v junk s ts ev with
           | Some (s', ts', x) => crun K v junk rb z s' ts' (cstore_next m ev x) (cused_next used ev x) evs
           | None => None
           end
      else None
  end.

Lemma crun_reach K v junk dk0 (rb : list (Z * task) -> cev -> bool) (R : list (Z * task) -> cev -> Prop) z evs :
  (forall ts ev, rb ts ev = true -> R ts ev) -> forall s ts m used s' ts' m' used',
  creach K v junk dk0 R z s ts m used -> crun K v junk rb z s ts m used evs = Some (s', ts', m', used') ->
  creach K v junk dk0 R z s' ts' m' used'.
Proof.
  intros RB. induction evs as [|ev evs IH]; cbn [crun]; intros s ts m used s' ts' m' used' X E.
  - injection E as <- <- <- <-. exact X.
  - destruct (clegalb v z s ts m ev && rb ts ev) eqn:L; [|discriminate]. apply andb_prop in L. destruct L as [L LR].
    destruct (cstep K v junk s ts ev) as [[[s1 ts1] x]|] eqn:ES; [|discriminate].
    eapply IH; [|exact E]. eapply creach_step; eauto. now apply clegalb_ok.
Qed.

Fixpoint itrace K v junk (s : idml) (m : store) (used : list Z) (ops : list iop) : option (idml * store * list Z) :=
  match ops with
  | [] => Some (s, m, used)
  | op :: ops =>
      if ilegalb v s m op
      then match istep K v junk s op with
           | Some (s', x) => if failed_clean x then None else itrace K v junk s' (store_next m op x) (used_next used op x) ops
           | None => None
           end
      else None
  end.

Lemma itrace_reach K v junk dk0 ops : forall s m used s' m' used',
  ireach K v junk dk0 s m used false -> itrace K v junk s m used ops = Some (s', m', used') -> ireach K v junk dk0 s' m' used' false.
Proof.
  induction ops as [|op ops IH]; cbn [itrace]; intros s m used s' m' used' R E.
  - injection E as <- <- <-. exact R.
  - destruct (ilegalb v s m op) eqn:L; [|discriminate]. apply ilegalb_ok in L.
    destruct (istep K v junk s op) as [[s1 x]|] eqn:ES; [|discriminate].
    destruct (failed_clean x) eqn:F; [discriminate|]. eapply IH; [|exact E].
    replace false with (false || failed_clean x) by (rewrite F; reflexivity). eapply ireach_step; eauto.
Qed.

(** A history and then events, checking the result. *)
Definition whole K v (rb : list (Z * task) -> cev -> bool) z ops evs (chk : idml -> list (Z * task) -> store -> list Z -> bool) : bool :=
  match itrace K v (fun _ => []) (idml_create v (fun _ => [])) (fun _ => None) [] ops with
  | None => false
  | Some (s, m, used) =>
      (0 <=? z) && (z <? v_zones v) && is_closed (fs (dcl (dd s))) z &&
      match crun K v (fun _ => []) rb z s [] m used evs with
      | None => false
      | Some (s, ts, m, used) => chk s ts m used
      end
  end.

Lemma whole_ok K v rb (R : list (Z * task) -> cev -> Prop) z ops evs chk : (forall ts ev, rb ts ev = true -> R ts ev) -> whole K v rb z ops evs chk = true ->
  exists s ts m used, creach K v (fun _ => []) (fun _ => []) R z s ts m used /\ chk s ts m used = true.
Proof.
  intros RB. unfold whole. destruct (itrace _ _ _ _ _ _ ops) as [[[s m] used]|] eqn:E; [|discriminate]. rewrite !andb_true_iff.
  intros (((A & B) & C) & D). destruct (crun _ _ _ _ _ _ _ _ _ evs) as [[[[s1 ts1] m1] used1]|] eqn:E1; [|discriminate].
  exists s1, ts1, m1, used1. split; [|exact D]. eapply crun_reach; [exact RB| |exact E1]. constructor; [|lia|exact C].
  eapply itrace_reach; [|exact E]. constructor.
Qed.

(** Three records of one block, in zones of two: zone 0 is closed. *)
Definition three : list iop := [IPut [1] CNone 1; IPut [2] CNone 1; IPut [3] CNone 1].

(** The cleaner has listed record 0; it is deleted; the relocation does not find
    it and panics ("Inconsistency in alloct"). *)
Theorem C24_delete_then_move_refuted :
  exists K v junk dk0 z s ts m used i,
    codecs_ok K /\ geometry v /\ creach K v junk dk0 anything z s ts m used /\
    clegal v z s ts m (EStep i ChFree) /\ cstep K v junk s ts (EStep i ChFree) = None.
Proof.
  destruct (whole_ok toy v3 (fun _ _ => true) anything 0 three
    [EMov 1 0 1; EDel 2 0; EStep 2 ChFree; EStep 2 ChFree; EStep 2 ChAlloct; EStep 2 ChRidt]
    (fun s ts m used => match cstep toy v3 (fun _ => []) s ts (EStep 1 ChFree) with None => true | Some _ => false end))
    as (s & ts & m & used & R & E).
  { intros; exact Logic.I. }
  { vm_compute. reflexivity. }
  exists toy, v3, (fun _ => []), (fun _ => []), 0, s, ts, m, used, 1. split; [apply toy_ok|]. split; [apply v3_geometry|].
  split; [exact R|]. split; [exact Logic.I|]. now destruct (cstep _ _ _ _ _ _) as [|].
Qed.

(** A deletion of record 0 has read its entry; the cleaner relocates the record;
    the deletion frees the old block for a second time, so that the zone counts
    as empty though record 1 is in it.  When the transaction ends the zone is
    erased, and record 1 -- which nobody deleted -- is lost. *)
Theorem C24_double_free_refuted :
  exists K v junk dk0 z s m used r b,
    codecs_ok K /\ geometry v /\ creach K v junk dk0 anything z s [] m used /\
    m r = Some b /\ option_map snd (idml_get K r (idml_evict r s)) = Some (Err EINTEGRITY).
Proof.
  destruct (whole_ok toy v3 (fun _ _ => true) anything 0 three
    [EDel 2 0; EStep 2 ChFree; EMov 1 0 1; EStep 1 ChFree; EStep 1 ChFree; EStep 1 ChFree; EStep 1 ChRidt; EStep 1 ChAlloct;
     EStep 2 ChFree; EStep 2 ChAlloct; EStep 2 ChRidt; EAdvance]
    (fun s ts m used => match ts with [] => true | _ => false end &&
       match m 1 with Some [x] => x =? 2 | _ => false end &&
       match option_map snd (idml_get toy 1 (idml_evict 1 s)) with Some (Err EINTEGRITY) => true | _ => false end))
    as (s & ts & m & used & R & E).
  { intros; exact Logic.I. }
  { vm_compute. reflexivity. }
  rewrite !andb_true_iff in E. destruct E as ((E1 & E2) & E3). destruct ts; [|discriminate].
  exists toy, v3, (fun _ => []), (fun _ => []), 0, s, m, used, 1, [2]. split; [apply toy_ok|]. split; [apply v3_geometry|].
  split; [exact R|]. split.
  - destruct (m 1) as [[|x []]|]; try discriminate. apply Z.eqb_eq in E2. now subst x.
  - destruct (option_map snd _) as [[|[]]|]; congruence || discriminate.
Qed.

(** C67: a cleaning may outlast its transaction.  The cleaner gives up its hold
    on the transaction (cleaner.rs 47-52) before the cleaning begins, so that,
    though no record is deleted while it is relocated: *)
Definition apart_or_advance (ts : list (Z * task)) (ev : cev) : Prop :=
  match ev with EAdvance => True | _ => apart ts ev end.

Definition apartb (ts : list (Z * task)) (ev : cev) : bool :=
  match ev with
  | EDel _ r | EMov _ r _ => forallb (fun q => negb (task_rid (snd q) =? r)) ts
  | _ => true
  end.

Lemma apartb_ok ts ev : apartb ts ev = true -> apart_or_advance ts ev.
Proof.
  destruct ev as [| |i r|i r txg| |]; cbn [apartb apart_or_advance apart]; auto; intros H j t E;
    apply zm_get_in in E; rewrite forallb_forall in H; specialize (H _ E); cbn [snd] in H; lia.
Qed.

Definition moves (i r : Z) : list cev :=
  [EMov i r 1; EStep i ChFree; EStep i ChFree; EStep i ChFree; EStep i ChRidt; EStep i ChAlloct].

(** Both records of zone 0 are relocated; before the cleaner has removed their
    old addresses from the allocation table the transaction ends and the zone is
    erased; a put that reuses its first block panics ("Double allocate without
    free"). *)
Theorem C67_clean_across_transactions_refuted :
  exists K v junk dk0 z s m used b,
    codecs_ok K /\ geometry v /\ creach K v junk dk0 apart_or_advance z s [] m used /\
    clegal v z s [] m (EPut b CNone 2) /\ cstep K v junk s [] (EPut b CNone 2) = None.
Proof.
  destruct (whole_ok toy v3 apartb apart_or_advance 0 three
    (moves 1 0 ++ moves 2 1 ++ [EAdvance; EPut [7] CNone 2])
    (fun s ts m used => match ts with [] => true | _ => false end &&
       match cstep toy v3 (fun _ => []) s [] (EPut [8] CNone 2) with None => true | Some _ => false end))
    as (s & ts & m & used & R & E).
  { apply apartb_ok. }
  { vm_compute. reflexivity. }
  apply andb_prop in E. destruct E as [E1 E2]. destruct ts; [|discriminate].
  exists toy, v3, (fun _ => []), (fun _ => []), 0, s, m, used, [8]. split; [apply toy_ok|]. split; [apply v3_geometry|].
  split; [exact R|]. split; [cbn [clegal]; unfold zlen, U32MAX, TXG_MAX; cbn; split; [lia|split; [exact Logic.I|lia]]|].
  now destruct (cstep _ _ _ _ _ _) as [|].
Qed.

(** Meeting the hypotheses of the positive theorems: records 0 and 1 of zone 0;
    record 0 is relocated while record 1 is deleted, their steps interleaved, a
    put and a read in between. *)
Definition apartb' (ts : list (Z * task)) (ev : cev) : bool := apartb ts ev && match ev with EAdvance => false | _ => true end.

Definition mixed : list cev :=
  [EMov 1 0 1; EDel 2 1; EStep 1 ChFree; EStep 2 ChFree; EStep 2 ChRidt; EStep 1 ChFree; EPut [9] CNone 1; EGet 0; EStep 2 ChFree;
   EStep 1 ChFree; EStep 1 ChAlloct; EStep 2 ChAlloct; EStep 1 ChRidt].

Example C24_example :
  exists K v junk dk0 s m used, codecs_ok K /\ geometry v /\ creach K v junk dk0 apart 0 s [] m used /\
    m 0 = Some [1] /\ m 1 = None /\ m 3 = Some [9] /\ option_map (fun e => d_pba (e_drp e)) (zm_get 0 (ridt s)) = Some 3.
Proof.
  destruct (whole_ok toy v3 apartb' apart 0 three mixed
    (fun s ts m used => match ts with [] => true | _ => false end &&
       match m 0, m 1, m 3 with Some [x], None, Some [y] => (x =? 1) && (y =? 9) | _, _, _ => false end &&
       match zm_get 0 (ridt s) with Some e => d_pba (e_drp e) =? 3 | None => false end))
    as (s & ts & m & used & R & E).
  { intros ts ev H. apply andb_prop in H. destruct H as [H1 H2]. apply apartb_ok in H1. destruct ev; try exact H1. discriminate. }
  { vm_compute. reflexivity. }
  rewrite !andb_true_iff in E. destruct E as ((E1 & E2) & E3). destruct ts; [|discriminate].
  exists toy, v3, (fun _ => []), (fun _ => []), s, m, used. split; [apply toy_ok|]. split; [apply v3_geometry|]. split; [exact R|].
  destruct (m 0) as [[|x []]|]; try discriminate. destruct (m 1); try discriminate. destruct (m 3) as [[|y []]|]; try discriminate.
  destruct (zm_get 0 (ridt s)) as [e|]; [|discriminate]. cbn [option_map].
  apply andb_prop in E2. repeat split; try (f_equal; f_equal; lia); f_equal; lia.
Qed.

Print Assumptions C24_interleavings_safe_partial.
Print Assumptions C24_at_rest_partial.
Print Assumptions C24_delete_then_move_refuted.
Print Assumptions C24_double_free_refuted.
Print Assumptions C67_clean_across_transactions_refuted.
