(** C23: records keep their identity while the cleaner moves them. *)
From Coq Require Import Permutation.
From Verif Require Import Common ZMap FSM_Model FSM_Spec FSM_Proofs FSM_Inv FSM_Props DDML_Model DDML_Proofs DDML_Props
  IDML_Model IDML_Proofs.

(** What a client, the cleaner, the cache and the end of transactions do.
    [IEvict] is also the cache dropping a record of its own accord. *)
Inductive iop :=
| IPut (b : list Z) (c : compression) (txg : Z)
| IGet (r : Z)
| IPop (r : Z)
| IDelete (r : Z)
| IEvict (r : Z)
| IClean (z txg : Z)
| IAdvance
| ISync.

Inductive ires := IRid (r : res Z) | IData (r : res (list Z)) | IClean' (r : res unit) | INone.

Definition istep K v junk (s : idml) (op : iop) : option (idml * ires) :=
  match op with
  | IPut b c txg => let* (s, r) := idml_put K v junk b c txg s in Some (s, IRid r)
  | IGet r => let* (s, x) := idml_get K r s in Some (s, IData x)
  | IPop r => let* (s, x) := idml_pop K v r s in Some (s, IData x)
  | IDelete r => let* s := idml_delete v r s in Some (s, INone)
  | IEvict r => Some (idml_evict r s, INone)
  | IClean z txg => let* (s, x) := clean_zone K v junk z txg s in Some (s, IClean' x)
  | IAdvance => Some (idml_advance v junk s, INone)
  | ISync => let* s := idml_flush v junk s in Some (s, INone)
  end.

(** The specification: a function from ids to contents, and the ids given out. *)
Definition store : Type := Z -> option (list Z).

Definition store_next (m : store) (op : iop) (x : ires) : store :=
  match op, x with
  | IPut b _ _, IRid (Ok r) => fun k => if k =? r then Some b else m k
  | (IPop r | IDelete r), _ => fun k => if k =? r then None else m k
  | _, _ => m
  end.

Definition used_next (used : list Z) (op : iop) (x : ires) : list Z :=
  match op, x with IPut _ _ _, IRid (Ok r) => r :: used | _, _ => used end.

(** Deleting an id that is not there is a mistake of the caller, and the code
    treats it as such; the cleaner cleans closed zones. *)
Definition ilegal (v : vdev) (s : idml) (m : store) (op : iop) : Prop :=
  match op with
  | IPut b c txg => 0 < zlen b < U32MAX /\ comp_ok c /\ 0 <= txg < TXG_MAX
  | IDelete r => m r <> None
  | IClean z txg => 0 <= z < v_zones v /\ is_closed (fs (dcl (dd s))) z = true /\ 0 <= txg < TXG_MAX
  | _ => True
  end.

Definition ianswer (m : store) (used : list Z) (op : iop) (x : ires) : Prop :=
  match op with
  | IPut _ _ _ => x = IRid (Err ENOSPC) \/ exists r, x = IRid (Ok r) /\ ~ In r used /\ m r = None
  | IGet r | IPop r => x = IData (match m r with Some b => Ok b | None => Err ENOENT end)
  | IClean _ _ => x = IClean' (Ok tt) \/ x = IClean' (Err ENOSPC)
  | _ => x = INone
  end.

(** Histories; [bad] if a cleaning has failed for lack of space. *)
Definition failed_clean (x : ires) : bool := match x with IClean' (Err _) => true | _ => false end.

Inductive ireach K v junk dk0 : idml -> store -> list Z -> bool -> Prop :=
| ireach_init : ireach K v junk dk0 (idml_create v dk0) (fun _ => None) [] false
| ireach_step s m used bad op s' x : ireach K v junk dk0 s m used bad -> ilegal v s m op ->
    istep K v junk s op = Some (s', x) ->
    ireach K v junk dk0 s' (store_next m op x) (used_next used op x) (bad || failed_clean x).

Section C23.
Context (K : codecs) (v : vdev) (junk dk0 : Z -> list Z).
Hypothesis OK : codecs_ok K.
Hypothesis G : geometry v.

Definition HInv (s : idml) (m : store) (used : list Z) (bad : bool) : Prop :=
  exists l, IInv K v s l (fun _ => bad) /\ (forall r, m r = zm_get r l) /\ (forall r, In r used -> r < next_rid s).

Lemma full_of_closed s l st z : IInv K v s l st -> 0 <= z -> is_closed (fs (dcl (dd s))) z = true -> full (dcl (dd s)) z.
Proof.
  intros I Z0 C. destruct (ii_store _ _ _ _ _ I) as (cl & tr & (live & _ & R) & _).
  unfold full. rewrite is_closed_view in C; [|apply (i_rep _ _ _ _ _ (reach_inv v G _ _ _ _ R))|exact Z0].
  destruct (view (fs (dcl (dd s))) z); try discriminate. exact Logic.I.
Qed.

Lemma istep_ok s m used bad op : HInv s m used bad -> ilegal v s m op ->
  match istep K v junk s op with
  | None => bad = true
  | Some (s', x) => ianswer m used op x /\ HInv s' (store_next m op x) (used_next used op x) (bad || failed_clean x)
  end.
Proof.
  intros (l & I & M & U) L. destruct op as [b c txg|r|r|r|r|z txg| |]; cbn [ilegal] in L; cbn [istep ianswer].
  - destruct L as (L1 & L2 & L3). pose proof (put_ok K v junk OK G s l _ b c txg I L2 L1 L3) as H.
    destruct (idml_put K v junk b c txg s) as [[s' [r|e]]|]; cbn [obind].
    + destruct H as (-> & I' & N'). split.
      * right. exists (next_rid s). split; [reflexivity|]. split; [intros X; apply U in X; lia|].
        rewrite M. destruct (zm_get (next_rid s) l) eqn:E; [|reflexivity]. exfalso.
        assert (X : next_rid s < next_rid s) by (apply (ii_next _ _ _ _ _ I); rewrite (ii_dom _ _ _ _ _ I); unfold zm_mem; now rewrite E). lia.
      * cbn [store_next used_next failed_clean]. rewrite orb_false_r. eexists. split; [exact I'|]. split.
        -- intros k. rewrite zm_get_set by apply (ii_m _ _ _ _ _ I). now rewrite M.
        -- intros k [<-|X]; [lia|]. apply U in X. lia.
    + destruct H as (-> & I' & N'). split; [now left|]. cbn [store_next used_next failed_clean]. rewrite orb_false_r.
      exists l. split; [exact I'|]. split; [exact M|]. intros k X. apply U in X. lia.
    + now destruct H.
  - destruct (get_ok K v s l _ r I) as (s' & E & I' & N'). rewrite E. cbn [obind store_next used_next failed_clean].
    rewrite orb_false_r, M. split; [reflexivity|]. exists l. rewrite N'. auto.
  - destruct (pop_ok K v junk G s l _ r I) as (s' & E & I' & N'). rewrite E. cbn [obind store_next used_next failed_clean].
    rewrite orb_false_r, M. split; [reflexivity|]. eexists. split; [exact I'|]. rewrite N'. split; [|exact U].
    intros k. rewrite zm_get_del by apply (ii_m _ _ _ _ _ I). now rewrite M.
  - rewrite M in L. destruct (zm_get r l) as [b|] eqn:EM; [|contradiction].
    destruct (delete_ok K v junk G s l _ r b I EM) as (s' & E & I' & N'). rewrite E. cbn [obind store_next used_next failed_clean].
    rewrite orb_false_r. split; [reflexivity|]. eexists. split; [exact I'|]. rewrite N'. split; [|exact U].
    intros k. rewrite zm_get_del by apply (ii_m _ _ _ _ _ I). now rewrite M.
  - split; [reflexivity|]. cbn [store_next used_next failed_clean]. rewrite orb_false_r.
    exists l. split; [apply (evict_ok K v s l _ r I)|]. auto.
  - destruct L as (L1 & L2 & L3). pose proof (clean_ok K v junk OK G s l bad z txg L3 I) as H.
    specialize (H (full_of_closed _ _ _ _ I (proj1 L1) L2)).
    destruct (clean_zone K v junk z txg s) as [[s' [[]|e]]|]; cbn [obind].
    + destruct H as (I' & N' & _). split; [now left|]. cbn [store_next used_next failed_clean]. rewrite orb_false_r.
      exists l. rewrite N'. auto.
    + destruct H as (-> & I' & N'). split; [now right|]. cbn [store_next used_next failed_clean]. rewrite orb_true_r.
      exists l. rewrite N'. auto.
    + exact H.
  - split; [reflexivity|]. cbn [store_next used_next failed_clean]. rewrite orb_false_r.
    exists l. split; [now apply iadvance_ok|]. auto.
  - destruct (iflush_ok K v junk G s l _ I) as (s' & E & I' & N'). rewrite E. cbn [obind store_next used_next failed_clean].
    rewrite orb_false_r. split; [reflexivity|]. exists l. rewrite N'. auto.
Qed.

Lemma hinit : HInv (idml_create v dk0) (fun _ => None) [] false.
Proof.
  exists []. split; [|split; [reflexivity|intros r []]].
  constructor; cbn; try (apply Sorted.Sorted_nil || constructor); try discriminate; try reflexivity; try contradiction.
  exists false, []. split; [|constructor]. exists []. split; [constructor|apply reach_init].
Qed.

Lemma ireach_inv s m used bad : ireach K v junk dk0 s m used bad -> HInv s m used bad.
Proof.
  induction 1; [apply hinit|]. pose proof (istep_ok _ _ _ _ _ IHireach H0) as X. rewrite H1 in X. apply X.
Qed.

(** As long as no cleaning has failed for lack of space, nothing panics, a
    record is returned under its id from the put to the delete -- however often
    it is moved -- an id that is not in use gives ENOENT, and ids are never
    given out twice.

    Missing from the full claim: histories in which a cleaning failed.  There
    the next operation may panic ([C23_failed_clean_refuted]); if it does not,
    the answers are still right ([C23_answers_right]). *)
Theorem C23_record_identity_partial s m used op :
  ireach K v junk dk0 s m used false -> ilegal v s m op ->
  exists s' x, istep K v junk s op = Some (s', x) /\ ianswer m used op x.
Proof.
  intros R L. apply ireach_inv in R. pose proof (istep_ok _ _ _ _ _ R L) as X.
  destruct (istep K v junk s op) as [[s' x]|]; [|discriminate]. exists s', x. split; [reflexivity|apply X].
Qed.

(** In every history, whatever is answered is right. *)
Theorem C23_answers_right s m used bad op s' x :
  ireach K v junk dk0 s m used bad -> ilegal v s m op -> istep K v junk s op = Some (s', x) -> ianswer m used op x.
Proof. intros R L E. apply ireach_inv in R. pose proof (istep_ok _ _ _ _ _ R L) as X. rewrite E in X. apply X. Qed.

(** Reads never panic, even after a failed cleaning. *)
Theorem C23_reads_never_panic s m used bad r : ireach K v junk dk0 s m used bad ->
  exists s', istep K v junk s (IGet r) = Some (s', IData (match m r with Some b => Ok b | None => Err ENOENT end)).
Proof.
  intros R. apply ireach_inv in R. destruct R as (l & I & M & U). destruct (get_ok K v s l _ r I) as (s' & E & _).
  exists s'. cbn [istep]. rewrite E, M. reflexivity.
Qed.

(** The two tables are inverse to each other, and the blocks in use are those of
    the records: in terms of the tables' contents and of the code's own check. *)
Theorem C23_tables_inverse_partial s m used : ireach K v junk dk0 s m used false ->
  (forall p r, zm_get p (alloct s) = Some r <-> exists e, zm_get r (ridt s) = Some e /\ d_pba (e_drp e) = p) /\
  (forall r, m r <> None <-> zm_get r (ridt s) <> None) /\
  check_ridt s = Some true.
Proof.
  intros R. apply ireach_inv in R. destruct R as (l & I & M & U). split; [|split].
  - intros p r. split.
    + intros E. destruct (ii_ex _ _ _ _ _ I p r E) as [X|X]; [discriminate|exact X].
    + intros (e & Ee & <-). now apply (ii_at _ _ _ _ _ I).
  - intros r. rewrite M. pose proof (ii_dom _ _ _ _ _ I r) as D. unfold zm_mem in D.
    destruct (zm_get r (ridt s)), (zm_get r l); split; congruence.
  - eapply check_true; eauto.
Qed.

(** A zone that was cleaned holds no record any more. *)
Theorem C23_cleaned_zone_empty s m used bad z txg s' :
  ireach K v junk dk0 s m used bad -> ilegal v s m (IClean z txg) -> istep K v junk s (IClean z txg) = Some (s', IClean' (Ok tt)) ->
  forall r e, zm_get r (ridt s') = Some e -> ~ (fst (v_lim v z) <= d_pba (e_drp e) < snd (v_lim v z)).
Proof.
  intros R (L1 & L2 & L3) E r e Ee X. apply ireach_inv in R. destruct R as (l & I & M & U). cbn [istep] in E.
  pose proof (clean_ok K v junk OK G s l bad z txg L3 I (full_of_closed _ _ _ _ I (proj1 L1) L2)) as H.
  destruct (clean_zone K v junk z txg s) as [[s1 [[]|q]]|]; cbn [obind] in E; try discriminate. injection E as ->.
  destruct H as (_ & _ & H). specialize (H r e Ee). unfold in_zone in H. lia.
Qed.

End C23.

(** Executing a history. *)
Fixpoint irun K v junk (s : idml) (ops : list iop) : option (idml * list ires) :=
  match ops with
  | [] => Some (s, [])
  | op :: ops => let* (s, x) := istep K v junk s op in let* (s, xs) := irun K v junk s ops in Some (s, x :: xs)
  end.

(** A check that a history is legal and that its last operation panics. *)
Definition ilegalb (v : vdev) (s : idml) (m : store) (op : iop) : bool :=
  match op with
  | IPut b c txg => (0 <? zlen b) && (zlen b <? U32MAX) && (match c with CNone => true | _ => false end) && (0 <=? txg) && (txg <? TXG_MAX)
  | IDelete r => match m r with Some _ => true | None => false end
  | IClean z txg => (0 <=? z) && (z <? v_zones v) && is_closed (fs (dcl (dd s))) z && (0 <=? txg) && (txg <? TXG_MAX)
  | _ => true
  end.

Lemma ilegalb_ok v s m op : ilegalb v s m op = true -> ilegal v s m op.
Proof.
  destruct op as [b c txg|r|r|r|r|z txg| |]; cbn [ilegalb ilegal]; intros H; auto.
  - rewrite !andb_true_iff in H. destruct H as ((((A & B) & C) & D) & E). destruct c; try discriminate.
    split; [lia|]. split; [exact Logic.I|lia].
  - destruct (m r); [discriminate|discriminate].
  - rewrite !andb_true_iff in H. destruct H as ((((A & B) & C) & D) & E). split; [lia|]. split; [exact C|lia].
Qed.

Fixpoint panics_at_end K v junk (s : idml) (m : store) (ops : list iop) : bool :=
  match ops with
  | [] => false
  | op :: rest => ilegalb v s m op &&
      match istep K v junk s op with
      | None => match rest with [] => true | _ => false end
      | Some (s', x) => panics_at_end K v junk s' (store_next m op x) rest
      end
  end.

Lemma panics_at_end_ok K v junk dk0 ops : forall s m used bad, ireach K v junk dk0 s m used bad ->
  panics_at_end K v junk s m ops = true ->
  exists s' m' used' bad', ireach K v junk dk0 s' m' used' bad' /\ ilegal v s' m' (last ops IAdvance) /\
                           istep K v junk s' (last ops IAdvance) = None.
Proof.
  induction ops as [|op ops IH]; intros s m used bad R H; [discriminate|]. cbn [panics_at_end] in H.
  apply andb_prop in H. destruct H as [L H]. apply ilegalb_ok in L.
  destruct (istep K v junk s op) as [[s' x]|] eqn:E.
  - destruct (IH _ _ _ _ (ireach_step _ _ _ _ _ _ _ _ _ _ _ R L E) H) as (s1 & m1 & u1 & b1 & A & B & C).
    exists s1, m1, u1, b1. destruct ops; [discriminate|]. auto.
  - exists s, m, used, bad. destruct ops; [|discriminate]. auto.
Qed.

(** Three zones of two LBAs. *)
Definition v3 : vdev :=
  mkvdev 3 (fun z => (2 * z, 2 * z + 2)) (fun l => if (0 <=? l) && (l <? 6) then Some (l / 2) else None) 1.

Lemma v3_geometry : geometry v3.
Proof.
  assert (D : forall l z, l / 2 = z <-> 2 * z <= l < 2 * z + 2).
  { intros l z. split; intros H.
    - pose proof (Z.div_mod l 2 ltac:(lia)). pose proof (Z.mod_pos_bound l 2 ltac:(lia)). lia.
    - symmetry. apply Z.div_unique_pos with (r := l - 2 * z); lia. }
  split; cbn [v3 v_zones v_lim v_zone_of v_stripe fst snd]; try lia.
  - intros z Hz. unfold U32MAX. lia.
  - intros lba z. destruct ((0 <=? lba) && (lba <? 6)) eqn:B.
    + split.
      * intros [= H]. apply D in H. lia.
      * intros [H1 H2]. f_equal. now apply D.
    + split; [discriminate|]. intros [H1 H2]. lia.
Qed.

(** Five records of one block; cleaning zone 0 moves the first and fails for
    lack of space on the second; both are deleted; when the zone is reused, the
    put that gets its first block finds the address still in the table. *)
Definition failed_clean_ops : list iop :=
  [IPut [1] CNone 1; IPut [2] CNone 1; IPut [3] CNone 1; IPut [4] CNone 1; IPut [5] CNone 1;
   IClean 0 1; IDelete 0; IDelete 1; IAdvance; IPut [6] CNone 2].

(** The full claim is false: after a cleaning that failed for lack of space, a
    put may panic ("Double allocate without free"). *)
Theorem C23_failed_clean_refuted :
  exists K v junk dk0 s m used bad b,
    codecs_ok K /\ geometry v /\ ireach K v junk dk0 s m used bad /\
    ilegal v s m (IPut b CNone 2) /\ istep K v junk s (IPut b CNone 2) = None.
Proof.
  destruct (panics_at_end_ok toy v3 (fun _ => []) (fun _ => []) failed_clean_ops _ _ _ _
              (ireach_init toy v3 (fun _ => []) (fun _ => []))) as (s & m & u & bad & R & L & E).
  { vm_compute. reflexivity. }
  exists toy, v3, (fun _ => []), (fun _ => []), s, m, u, bad, [6].
  split; [apply toy_ok|]. split; [apply v3_geometry|]. auto.
Qed.

(** A history that meets the hypotheses of the theorems: two records, one
    compressed; the second is deleted, the zone is closed by a third, and
    cleaning it moves the first, which is then read from its new place. *)
Definition moved_ops : list iop :=
  [IPut (zrepeat 7 8192) (CLZ4 None) 1; IPut [2] CNone 1; IPut [3] CNone 1; IDelete 1; IClean 0 2; IEvict 0; IGet 0; IGet 1; IAdvance; ISync; IPop 0].

Example C23_example :
  option_map (fun p => (map (fun e => (fst e, d_pba (e_drp (snd e)))) (ridt (fst p)), alloct (fst p), check_ridt (fst p), snd p))
    (irun toy v3 (fun _ => []) (idml_create v3 (fun _ => [])) moved_ops) =
  Some ([(2, 2)], [(2, 2)], Some true,
        [IRid (Ok 0); IRid (Ok 1); IRid (Ok 2); INone; IClean' (Ok tt); INone; IData (Ok (zrepeat 7 8192)); IData (Err ENOENT); INone; INone;
         IData (Ok (zrepeat 7 8192))]).
Proof. vm_compute. reflexivity. Qed.

Print Assumptions C23_record_identity_partial.
Print Assumptions C23_answers_right.
Print Assumptions C23_reads_never_panic.
Print Assumptions C23_tables_inverse_partial.
Print Assumptions C23_cleaned_zone_empty.
Print Assumptions C23_failed_clean_refuted.
