(** Facts about the indirect data management layer. *)
From Coq Require Import Permutation.
From Verif Require Import Common ZMap FSM_Model FSM_Spec FSM_Proofs FSM_Inv FSM_Props DDML_Model DDML_Proofs IDML_Model.

Lemma zm_del_none {A} k (l : list (Z * A)) : zm_ok l -> zm_get k l = None -> zm_del k l = l.
Proof.
  intros O N. apply zm_ext; [now apply zm_ok_del|exact O|]. intros j. rewrite zm_get_del by exact O.
  destruct (Z.eqb_spec j k); congruence.
Qed.

Lemma zm_set_perm {A} k (x : A) l : zm_ok l -> Permutation (zm_set k x l) ((k, x) :: zm_del k l).
Proof.
  induction l as [|[j y] l IH]; intros O; [reflexivity|].
  apply zm_ok_cons in O. destruct O as [O F]. cbn [zm_set zm_del].
  destruct (Z.ltb_spec k j).
  - replace (k =? j) with false by lia. rewrite zm_del_none; auto.
    apply zm_get_lt. eapply Forall_impl; [|exact F]. cbn. intros; lia.
  - destruct (Z.eqb_spec k j) as [->|N].
    + reflexivity.
    + rewrite perm_swap. constructor. auto.
Qed.

Lemma zm_del_perm {A} k (x : A) l : zm_ok l -> zm_get k l = Some x -> Permutation l ((k, x) :: zm_del k l).
Proof.
  intros O E. rewrite <- (zm_set_perm k x l O).
  replace (zm_set k x l) with l; [reflexivity|]. apply zm_ext; [exact O|now apply zm_ok_set|].
  intros j. rewrite zm_get_set by exact O. destruct (Z.eqb_spec j k) as [->|]; auto.
Qed.

Section IDML.
Context (K : codecs) (v : vdev) (junk : Z -> list Z).
Hypothesis OK : codecs_ok K.
Hypothesis G : geometry v.

Definition value (m : list (Z * list Z)) (r : Z) : list Z := match zm_get r m with Some b => b | None => [] end.

Definition recs (t : list (Z * entry)) (m : list (Z * list Z)) : list (drp * list Z) :=
  map (fun p => (e_drp (snd p), value m (fst p))) t.

Record IInv (s : idml) (m : list (Z * list Z)) (stale : Z -> bool) : Prop := {
  ii_ridt : zm_ok (ridt s);
  ii_alloct : zm_ok (alloct s);
  ii_icache : zm_ok (icache s);
  ii_m : zm_ok m;
  ii_dcache : dcache (dd s) = [];
  ii_store : exists cl tr, Store K v (dcl (dd s)) (disk (dd s)) (recs (ridt s) m) cl tr;
  ii_ref : forall r e, zm_get r (ridt s) = Some e -> e_ref e = 1;
  ii_dom : forall r, zm_mem r (ridt s) = zm_mem r m;
  ii_cache : forall r b, zm_get r (icache s) = Some b -> zm_get r m = Some b;
  ii_next : forall r, zm_mem r (ridt s) = true -> r < next_rid s;
  ii_at : forall r e, zm_get r (ridt s) = Some e -> zm_get (d_pba (e_drp e)) (alloct s) = Some r;
  ii_ex : forall p r, zm_get p (alloct s) = Some r -> stale p = true \/ exists e, zm_get r (ridt s) = Some e /\ d_pba (e_drp e) = p
}.

Lemma IInv_weaken s m st st' : IInv s m st -> (forall p, st p = true -> st' p = true) -> IInv s m st'.
Proof.
  intros [] H. constructor; auto. intros p r E. destruct (ii_ex0 p r E) as [X|X]; auto.
Qed.

(** What is stored, split at one id. *)
Lemma recs_ext t m m' : (forall r, In r (map fst t) -> value m r = value m' r) -> recs t m = recs t m'.
Proof.
  intros H. unfold recs. apply map_ext_in. intros [r e] Hi. cbn [fst snd]. f_equal. apply H. now apply (in_map fst) in Hi.
Qed.

Lemma in_del {A} k j (l : list (Z * A)) : zm_ok l -> In j (map fst (zm_del k l)) -> j <> k /\ In j (map fst l).
Proof.
  intros O H. apply in_map_iff in H. destruct H as ([j' x] & E & H). cbn in E. subst j'.
  split; [|apply zm_del_in in H; now apply (in_map fst) in H].
  apply (zm_in_get j x) in H; [|now apply zm_ok_del]. rewrite zm_get_del in H by exact O.
  destruct (Z.eqb_spec j k); [discriminate|assumption].
Qed.

Lemma recs_split t m r e : zm_ok t -> zm_get r t = Some e ->
  Permutation (recs t m) ((e_drp e, value m r) :: recs (zm_del r t) m).
Proof. intros O E. unfold recs. rewrite (Permutation_map _ (zm_del_perm r e t O E)). reflexivity. Qed.

Lemma recs_set t m r e : zm_ok t -> Permutation (recs (zm_set r e t) m) ((e_drp e, value m r) :: recs (zm_del r t) m).
Proof. intros O. unfold recs. rewrite (Permutation_map _ (zm_set_perm r e t O)). reflexivity. Qed.

(** Different records have different addresses. *)
Lemma pba_inj s m st r1 r2 e1 e2 : IInv s m st -> zm_get r1 (ridt s) = Some e1 -> zm_get r2 (ridt s) = Some e2 ->
  d_pba (e_drp e1) = d_pba (e_drp e2) -> r1 = r2.
Proof.
  intros I E1 E2 E. pose proof (ii_at _ _ _ I r1 e1 E1) as A1. pose proof (ii_at _ _ _ I r2 e2 E2) as A2. congruence.
Qed.

Lemma m_get s m st r e : IInv s m st -> zm_get r (ridt s) = Some e -> zm_get r m = Some (value m r).
Proof.
  intros I E. pose proof (ii_dom _ _ _ I r) as D. unfold zm_mem in D. rewrite E in D. unfold value.
  destruct (zm_get r m); [reflexivity|discriminate].
Qed.

Lemma read_rec s m st r e : IInv s m st -> zm_get r (ridt s) = Some e ->
  content K (disk (dd s)) (e_drp e, value m r) /\ read_blocks K (e_drp e) (dd s) = Some (Ok (value m r)).
Proof.
  intros I E. destruct (ii_store _ _ _ I) as (cl & tr & S).
  assert (C : content K (disk (dd s)) (e_drp e, value m r)).
  { destruct S as [_ F]. rewrite Forall_forall in F. apply F.
    eapply Permutation_in; [apply Permutation_sym; apply recs_split; [apply (ii_ridt _ _ _ I)|exact E]|]. now left. }
  split; [exact C|]. destruct (dd s) as [c dk ch]. cbn [disk] in *. apply (content_read K dk c ch _ C).
Qed.

(** ** put *)

Lemma put_ok s m st b c txg :
  IInv s m st -> comp_ok c -> 0 < zlen b < U32MAX -> 0 <= txg < TXG_MAX ->
  match idml_put K v junk b c txg s with
  | None => exists p, st p = true
  | Some (s', Err e) => e = ENOSPC /\ IInv s' m st /\ next_rid s' = next_rid s + 1
  | Some (s', Ok r) => r = next_rid s /\ IInv s' (zm_set r b m) st /\ next_rid s' = next_rid s + 1
  end.
Proof.
  intros I C L T. destruct (ii_store _ _ _ I) as (cl & tr & S). unfold idml_put, put_direct. cbn [dd].
  pose proof (ii_dcache _ _ _ I) as DC. destruct (dd s) as [c0 dk ch] eqn:ED. cbn [dcl disk dcache] in *. subst ch.
  destruct (put_spec K v junk OK G c0 dk _ cl tr b c txg [] S C L T) as (d' & r & E & EC & _ & o & R).
  rewrite E. cbn [obind]. destruct r as [d|e].
  - destruct R as (S' & _ & DJ & _). cbn [ridt alloct set_dd].
    assert (NM : zm_mem (next_rid s) (ridt s) = false).
    { destruct (zm_mem (next_rid s) (ridt s)) eqn:X; [|reflexivity]. apply (ii_next _ _ _ I) in X. lia. }
    rewrite NM. cbn [negb oassert].
    destruct (zm_mem (d_pba d) (alloct s)) eqn:NA; cbn [negb oassert].
    + apply zm_mem_get in NA. destruct NA as (r & Er). destruct (ii_ex _ _ _ I _ _ Er) as [X|(e & Ee & Ep)]; [eauto|].
      exfalso. pose proof (recs_split (ridt s) m r e (ii_ridt _ _ _ I) Ee) as P.
      apply (Store_pba K v junk G _ _ _ _ _ (d, b) (e_drp e, value m r) (recs (zm_del r (ridt s)) m) S'); [|now cbn].
      constructor. exact P.
    + split; [reflexivity|]. split; [|reflexivity]. cbn [next_rid set_dd].
      apply zm_mem_false in NM. apply zm_mem_false in NA.
      constructor; cbn [dd ridt alloct next_rid icache set_dd].
      * apply zm_ok_set, (ii_ridt _ _ _ I).
      * apply zm_ok_set, (ii_alloct _ _ _ I).
      * apply zm_ok_set, (ii_icache _ _ _ I).
      * apply zm_ok_set, (ii_m _ _ _ I).
      * exact EC.
      * exists false, (tr ++ o). eapply Store_perm; [exact S'|]. rewrite recs_set by apply (ii_ridt _ _ _ I).
        cbn [e_drp]. rewrite zm_del_none by (auto; apply (ii_ridt _ _ _ I)). unfold value at 1.
        rewrite zm_get_set, Z.eqb_refl by apply (ii_m _ _ _ I). constructor.
        erewrite recs_ext; [reflexivity|]. intros r Hr. unfold value. rewrite zm_get_set by apply (ii_m _ _ _ I).
        destruct (Z.eqb_spec r (next_rid s)) as [->|]; [|reflexivity]. exfalso.
        apply in_map_iff in Hr. destruct Hr as ([r' e] & Er & Hr). cbn in Er. subst r'.
        apply zm_in_get in Hr; [congruence|apply (ii_ridt _ _ _ I)].
      * intros r e. rewrite zm_get_set by apply (ii_ridt _ _ _ I). destruct (r =? next_rid s); [|apply (ii_ref _ _ _ I)].
        intros X; injection X as <-. reflexivity.
      * intros r. rewrite zm_mem_set, zm_mem_set by (apply (ii_ridt _ _ _ I) || apply (ii_m _ _ _ I)). now rewrite (ii_dom _ _ _ I).
      * intros r x. rewrite !zm_get_set by (apply (ii_icache _ _ _ I) || apply (ii_m _ _ _ I)). destruct (r =? next_rid s); [auto|apply (ii_cache _ _ _ I)].
      * intros r. rewrite zm_mem_set by apply (ii_ridt _ _ _ I). intros X. apply orb_prop in X. destruct X as [X|X]; [lia|].
        apply (ii_next _ _ _ I) in X. lia.
      * intros r e. rewrite zm_get_set by apply (ii_ridt _ _ _ I). rewrite zm_get_set by apply (ii_alloct _ _ _ I).
        destruct (Z.eqb_spec r (next_rid s)) as [->|N].
        -- intros X; injection X as <-. cbn [e_drp]. now rewrite Z.eqb_refl.
        -- intros X. pose proof (ii_at _ _ _ I r e X) as A. destruct (Z.eqb_spec (d_pba (e_drp e)) (d_pba d)) as [Y|Y]; [congruence|exact A].
      * intros p r. rewrite zm_get_set by apply (ii_alloct _ _ _ I). destruct (Z.eqb_spec p (d_pba d)) as [->|N].
        -- intros X; injection X as <-. right. exists (mkentry d 1). rewrite zm_get_set, Z.eqb_refl by apply (ii_ridt _ _ _ I). auto.
        -- intros X. destruct (ii_ex _ _ _ I p r X) as [Y|(e & Ee & Ep)]; [now left|]. right. exists e. split; [|exact Ep].
           rewrite zm_get_set by apply (ii_ridt _ _ _ I). destruct (Z.eqb_spec r (next_rid s)) as [->|]; [congruence|exact Ee].
  - destruct R as (-> & S'). split; [reflexivity|]. split; [|reflexivity]. destruct I.
    constructor; cbn [dd ridt alloct next_rid icache set_dd]; auto.
    + exists false, (tr ++ o). exact S'.
    + intros r X. apply ii_next0 in X. lia.
Qed.

(** ** get and evict *)

Lemma get_ok s m st r : IInv s m st ->
  exists s', idml_get K r s = Some (s', match zm_get r m with Some b => Ok b | None => Err ENOENT end) /\ IInv s' m st /\ next_rid s' = next_rid s.
Proof.
  intros I. unfold idml_get. destruct (zm_get r (icache s)) as [b|] eqn:E.
  - rewrite (ii_cache _ _ _ I r b E). eauto.
  - destruct (zm_get r (ridt s)) as [e|] eqn:E2.
    + unfold get_direct. rewrite (proj2 (read_rec _ _ _ _ _ I E2)). cbn [obind].
      rewrite (m_get _ _ _ _ _ I E2). eexists. split; [reflexivity|]. split; [|reflexivity].
      pose proof (m_get _ _ _ _ _ I E2) as M. destruct I. constructor; cbn [dd ridt alloct next_rid icache set_icache]; auto.
      * now apply zm_ok_set.
      * intros r' x. rewrite zm_get_set by assumption. destruct (Z.eqb_spec r' r) as [->|]; [congruence|auto].
    + pose proof (ii_dom _ _ _ I r) as D. unfold zm_mem in D. rewrite E2 in D. destruct (zm_get r m); [discriminate|].
      eauto.
Qed.

Lemma evict_ok s m st r : IInv s m st -> IInv (idml_evict r s) m st /\ zm_get r (icache (idml_evict r s)) = None.
Proof.
  intros I. unfold idml_evict. split.
  - destruct I. constructor; cbn [dd ridt alloct next_rid icache set_icache]; auto; [now apply zm_ok_del|].
    intros r' x. rewrite zm_get_del by assumption. destruct (r' =? r); [discriminate|auto].
  - cbn [icache set_icache]. rewrite zm_get_del by apply (ii_icache _ _ _ I). now rewrite Z.eqb_refl.
Qed.

(** ** Removing a record *)

Lemma remove_ok s m st r e : IInv s m st -> zm_get r (ridt s) = Some e -> zm_get r (icache s) = None ->
  exists c', delete_direct v (e_drp e) (dd s) = Some (mkddml c' (disk (dd s)) []) /\
  zm_mem (d_pba (e_drp e)) (alloct s) = true /\
  IInv (mkidml (mkddml c' (disk (dd s)) []) (zm_del r (ridt s)) (zm_del (d_pba (e_drp e)) (alloct s)) (next_rid s) (icache s))
       (zm_del r m) st.
Proof.
  intros I E N. destruct (ii_store _ _ _ I) as (cl & tr & S). pose proof (ii_dcache _ _ _ I) as DC.
  pose proof (recs_split (ridt s) m r e (ii_ridt _ _ _ I) E) as P.
  destruct (dd s) as [c dk ch] eqn:ED. cbn [dcl disk dcache] in *. subst ch.
  destruct (free_spec K v junk G c dk _ _ cl tr (e_drp e) (value m r) [] S P) as (c' & EF & S' & _).
  exists c'. split; [exact EF|]. pose proof (ii_at _ _ _ I r e E) as A. split; [unfold zm_mem; now rewrite A|].
  constructor; cbn [dd ridt alloct next_rid icache dcl disk dcache].
  - apply zm_ok_del, (ii_ridt _ _ _ I).
  - apply zm_ok_del, (ii_alloct _ _ _ I).
  - apply (ii_icache _ _ _ I).
  - apply zm_ok_del, (ii_m _ _ _ I).
  - reflexivity.
  - exists false, tr. erewrite recs_ext; [exact S'|]. intros j Hj. apply in_del in Hj; [|apply (ii_ridt _ _ _ I)].
    unfold value. rewrite zm_get_del by apply (ii_m _ _ _ I). destruct (Z.eqb_spec j r); [tauto|reflexivity].
  - intros j x. rewrite zm_get_del by apply (ii_ridt _ _ _ I). destruct (j =? r); [discriminate|apply (ii_ref _ _ _ I)].
  - intros j. rewrite !zm_mem_del by (apply (ii_ridt _ _ _ I) || apply (ii_m _ _ _ I)). now rewrite (ii_dom _ _ _ I).
  - intros j x X. rewrite zm_get_del by apply (ii_m _ _ _ I). destruct (Z.eqb_spec j r); [congruence|]. now apply (ii_cache _ _ _ I).
  - intros j. rewrite zm_mem_del by apply (ii_ridt _ _ _ I). intros X. apply andb_prop in X. now apply (ii_next _ _ _ I).
  - intros j x. rewrite zm_get_del by apply (ii_ridt _ _ _ I). destruct (Z.eqb_spec j r); [discriminate|]. intros X.
    rewrite zm_get_del by apply (ii_alloct _ _ _ I). destruct (Z.eqb_spec (d_pba (e_drp x)) (d_pba (e_drp e))) as [Y|Y].
    + contradiction n. eapply pba_inj; eauto.
    + now apply (ii_at _ _ _ I).
  - intros p j. rewrite zm_get_del by apply (ii_alloct _ _ _ I). destruct (Z.eqb_spec p (d_pba (e_drp e))) as [Y|Y]; [discriminate|].
    intros X. destruct (ii_ex _ _ _ I p j X) as [Z0|(x & Ex & Ep)]; [now left|right]. exists x. split; [|exact Ep].
    rewrite zm_get_del by apply (ii_ridt _ _ _ I). destruct (Z.eqb_spec j r) as [->|]; [congruence|exact Ex].
Qed.

Lemma delete_ok s m st r b : IInv s m st -> zm_get r m = Some b ->
  exists s', idml_delete v r s = Some s' /\ IInv s' (zm_del r m) st /\ next_rid s' = next_rid s.
Proof.
  intros I M. pose proof (ii_dom _ _ _ I r) as D. unfold zm_mem in D. rewrite M in D.
  destruct (zm_get r (ridt s)) as [e|] eqn:E; [|discriminate]. unfold idml_delete. rewrite E. cbn [obind].
  rewrite (ii_ref _ _ _ I r e E). cbn [Z.eqb Z.sub Z.add Z.opp Z.pos_sub].
  destruct (evict_ok _ _ _ r I) as [I' N'].
  destruct (remove_ok _ _ _ _ _ I' E N') as (c' & ED & MA & I2). rewrite ED. cbn [obind]. rewrite MA. cbn [oassert].
  eexists. split; [reflexivity|]. split; [exact I2|reflexivity].
Qed.

Lemma pop_ok s m st r : IInv s m st ->
  exists s', idml_pop K v r s = Some (s', match zm_get r m with Some b => Ok b | None => Err ENOENT end) /\
             IInv s' (zm_del r m) st /\ next_rid s' = next_rid s.
Proof.
  intros I. unfold idml_pop. destruct (zm_get r (ridt s)) as [e|] eqn:E.
  - rewrite (ii_ref _ _ _ I r e E). cbn [Z.eqb Z.sub Z.add Z.opp Z.pos_sub].
    destruct (evict_ok _ _ _ r I) as [I' N'].
    destruct (remove_ok _ _ _ _ _ I' E N') as (c' & ED & MA & I2).
    pose proof (m_get _ _ _ _ _ I E) as M. rewrite M.
    assert (EV : dd (idml_evict r s) = dd s) by reflexivity. rewrite EV in *.
    assert (R : (match zm_get r (icache s) with
                 | Some b => let* d := ddml_delete v (e_drp e) (dd s) in Some (d, Ok b)
                 | None => pop_direct K v (e_drp e) (dd s) end) = Some (mkddml c' (disk (dd s)) [], Ok (value m r))).
    { destruct (zm_get r (icache s)) as [b|] eqn:EC.
      - unfold ddml_delete. replace (ddml_evict (e_drp e) (dd s)) with (dd s).
        + rewrite ED. cbn [obind]. apply (ii_cache _ _ _ I) in EC. congruence.
        + unfold ddml_evict. pose proof (ii_dcache _ _ _ I) as DC. destruct (dd s); cbn in *. now subst.
      - unfold pop_direct. rewrite (proj2 (read_rec _ _ _ _ _ I E)). cbn [obind]. rewrite ED. reflexivity. }
    rewrite R. cbn [obind set_dd idml_evict set_icache alloct ridt next_rid icache dd] in *. rewrite MA. cbn [oassert].
    eexists. split; [reflexivity|]. split; [exact I2|reflexivity].
  - pose proof (ii_dom _ _ _ I r) as D. unfold zm_mem in D. rewrite E in D. destruct (zm_get r m) eqn:M; [discriminate|].
    rewrite (zm_del_none r m) by (auto; apply (ii_m _ _ _ I)). eauto.
Qed.

(** ** Moving a record *)

Lemma content_recompress dk d0 d' st b0 : content K dk (d', st) -> d_compressed d' = false ->
  decode K d0 st = Some (Ok b0) -> content K dk (into_compressed d' d0, b0).
Proof.
  intros (x & R & L & C & D & B) U D0. unfold decode in D. rewrite U in D. injection D as ->.
  exists st. unfold into_compressed, asize, decode in *. cbn [d_pba d_csize d_ck d_compressed d_lsize] in *. auto.
Qed.

Lemma move_ok s m st r e txg : IInv s m st -> zm_get r (ridt s) = Some e -> 0 <= txg < TXG_MAX ->
  exists s' x, move_record K v junk r txg s = Some (s', x) /\ next_rid s' = next_rid s /\
  (forall z, full (dcl (dd s)) z -> full (dcl (dd s')) z) /\
  match x with
  | Err y => y = ENOSPC /\ IInv s' m st
  | Ok n => (forall z, full (dcl (dd s)) z -> in_zone v z (d_pba n) = false) /\
            ridt s' = zm_set r (mkentry n 1) (ridt s) /\
            IInv s' m (fun p => st p || (p =? d_pba (e_drp e)))
  end.
Proof.
  intros I E T. destruct (ii_store _ _ _ I) as (cl & tr & S). destruct (read_rec _ _ _ _ _ I E) as [C RD].
  pose proof (ii_dcache _ _ _ I) as DC. pose proof (m_get _ _ _ _ _ I E) as M.
  (* copying *)
  assert (CP : exists s1 y, move_copy K v junk r e txg s = Some (s1, y) /\
     ridt s1 = ridt s /\ alloct s1 = alloct s /\ icache s1 = icache s /\ next_rid s1 = next_rid s /\ dcache (dd s1) = [] /\
     (forall z, full (dcl (dd s)) z -> full (dcl (dd s1)) z) /\
     exists o, match y with
     | Err q => q = ENOSPC /\ Store K v (dcl (dd s1)) (disk (dd s1)) (recs (ridt s) m) false (tr ++ o)
     | Ok n => Store K v (dcl (dd s1)) (disk (dd s1)) ((n, value m r) :: recs (ridt s) m) false (tr ++ o) /\
               (forall z, full (dcl (dd s)) z -> in_zone v z (d_pba n) = false)
     end).
  { assert (PUT : forall b, 0 < zlen b < U32MAX -> exists d1 y, put_direct K v junk b CNone txg (dd s) = Some (d1, y) /\ dcache d1 = [] /\
       (forall z, full (dcl (dd s)) z -> full (dcl d1) z) /\
       exists o, match y with
       | Err q => q = ENOSPC /\ Store K v (dcl d1) (disk d1) (recs (ridt s) m) false (tr ++ o)
       | Ok n => Store K v (dcl d1) (disk d1) ((n, b) :: recs (ridt s) m) false (tr ++ o) /\
                 (forall z, full (dcl (dd s)) z -> in_zone v z (d_pba n) = false) /\ d_compressed n = false
       end).
    { intros b L. destruct (dd s) as [c dk ch] eqn:ED. cbn [dcl disk dcache] in *. subst ch.
      destruct (put_spec K v junk OK G c dk _ cl tr b CNone txg [] S Logic.I L T) as (d1 & y & EP & EC & FU & o & R).
      exists d1, y. split; [exact EP|]. split; [exact EC|]. split; [exact FU|]. exists o. destruct y as [n|q]; [|exact R].
      destruct R as (S' & NZ & _ & UN). split; [exact S'|]. split; [|apply UN; reflexivity].
      intros z Fz. specialize (NZ z Fz). unfold in_zone. destruct ((fst (v_lim v z) <=? d_pba n) && (d_pba n <? snd (v_lim v z))) eqn:X; [|reflexivity].
      apply andb_prop in X. exfalso. apply NZ. lia. }
    destruct C as (sx & R1 & R2 & R3 & R4 & R5). unfold move_copy.
    destruct (if d_compressed (e_drp e) then None else zm_get r (icache s)) as [b|] eqn:EH.
    - assert (b = value m r /\ zlen b = d_csize (e_drp e)) as [-> LB].
      { destruct (d_compressed (e_drp e)) eqn:U; [discriminate|]. apply (ii_cache _ _ _ I) in EH.
        unfold decode in R4. rewrite U in R4. split; congruence. }
      destruct (PUT (value m r) ltac:(lia)) as (d1 & y & EP & EC & FU & o & R). rewrite EP. cbn [obind].
      exists (set_dd d1 s), y. repeat (split; [reflexivity || exact EC || exact FU|]). exists o.
      destruct y as [n|q]; [|exact R]. cbn [set_dd dd]. tauto.
    - unfold get_direct. assert (RU : read_blocks K (as_uncompressed (e_drp e)) (dd s) = Some (Ok sx)).
      { unfold read_blocks, ddml_read, as_uncompressed, asize in *. cbn [d_pba d_csize d_ck d_compressed].
        rewrite R1, <- R2, pad_take, R3, Z.eqb_refl. reflexivity. }
      rewrite RU. cbn [obind].
      destruct (PUT sx ltac:(lia)) as (d1 & y & EP & EC & FU & o & R). rewrite EP. cbn [obind].
      eexists (set_dd d1 s), _. split; [reflexivity|]. repeat (split; [reflexivity || exact EC || exact FU|]). exists o.
      destruct y as [n|q]; [|exact R]. destruct R as (((live & P & RR) & F) & NZ & U). cbn [set_dd dd].
      split; [|exact NZ]. split; [exists live; split; [exact P|exact RR]|]. inversion F; subst. constructor; [|assumption].
      eapply content_recompress; eauto. }
  destruct CP as (s1 & y & EM & ER & EA & EI & EN & ED & FU & o & R).
  unfold move_record. rewrite E. cbn [obind]. rewrite EM. cbn [obind]. destruct y as [n|q].
  - destruct R as (S1 & NZ).
    pose proof (recs_split (ridt s) m r e (ii_ridt _ _ _ I) E) as P.
    destruct (dd s1) as [c1 dk1 ch1] eqn:ED1. cbn [dcl disk dcache] in *. subst ch1.
    destruct (free_spec K v junk G c1 dk1 ((n, value m r) :: recs (ridt s) m) ((n, value m r) :: recs (zm_del r (ridt s)) m) false (tr ++ o) (e_drp e) (value m r) [] S1) as (c2 & EF & S2 & FU2).
    { rewrite perm_swap. constructor. exact P. }
    rewrite EF. cbn [obind]. eexists _, _. split; [reflexivity|]. cbn [next_rid]. split; [exact EN|]. cbn [dd dcl].
    split; [auto|]. split; [exact NZ|]. rewrite ER, EA, EI, EN, (ii_ref _ _ _ I r e E). split; [reflexivity|].
    assert (NEW : forall j x, zm_get j (ridt s) = Some x -> j <> r -> d_pba (e_drp x) <> d_pba n).
    { intros j x Ex Nj X.
      assert (Ex' : zm_get j (zm_del r (ridt s)) = Some x).
      { rewrite zm_get_del by apply (ii_ridt _ _ _ I). destruct (Z.eqb_spec j r); [contradiction|exact Ex]. }
      apply (Store_pba K v junk G _ _ _ _ _ (n, value m r) (e_drp x, value m j) (recs (zm_del j (zm_del r (ridt s))) m) S2); [|now cbn].
      constructor. apply recs_split; [apply zm_ok_del, (ii_ridt _ _ _ I)|exact Ex']. }
    constructor; cbn [dd ridt alloct next_rid icache dcl disk dcache].
    + apply zm_ok_set, (ii_ridt _ _ _ I).
    + apply zm_ok_set, (ii_alloct _ _ _ I).
    + apply (ii_icache _ _ _ I).
    + apply (ii_m _ _ _ I).
    + reflexivity.
    + exists false, (tr ++ o). eapply Store_perm; [exact S2|]. rewrite recs_set by apply (ii_ridt _ _ _ I). reflexivity.
    + intros j x. rewrite zm_get_set by apply (ii_ridt _ _ _ I). destruct (j =? r); [|apply (ii_ref _ _ _ I)]. intros X; injection X as <-. reflexivity.
    + intros j. rewrite zm_mem_set by apply (ii_ridt _ _ _ I). rewrite <- (ii_dom _ _ _ I). destruct (Z.eqb_spec j r) as [->|]; [|reflexivity].
      unfold zm_mem. now rewrite E.
    + apply (ii_cache _ _ _ I).
    + intros j. rewrite zm_mem_set by apply (ii_ridt _ _ _ I). intros X. apply orb_prop in X. destruct X as [X|X]; [|now apply (ii_next _ _ _ I)].
      apply Z.eqb_eq in X. subst j. apply (ii_next _ _ _ I). unfold zm_mem. now rewrite E.
    + intros j x. rewrite zm_get_set by apply (ii_ridt _ _ _ I). rewrite zm_get_set by apply (ii_alloct _ _ _ I). destruct (Z.eqb_spec j r) as [->|Nj].
      * intros X; injection X as <-. cbn [e_drp]. now rewrite Z.eqb_refl.
      * intros X. destruct (Z.eqb_spec (d_pba (e_drp x)) (d_pba n)) as [Y|Y]; [|now apply (ii_at _ _ _ I)]. exfalso. eapply NEW; eauto.
    + intros p j. rewrite zm_get_set by apply (ii_alloct _ _ _ I). destruct (Z.eqb_spec p (d_pba n)) as [->|Np].
      * intros X; injection X as <-. right. exists (mkentry n 1). rewrite zm_get_set, Z.eqb_refl by apply (ii_ridt _ _ _ I). auto.
      * intros X. destruct (ii_ex _ _ _ I p j X) as [Y|(x & Ex & Ep)]; [left; now rewrite Y|].
        destruct (Z.eqb_spec j r) as [->|Nj].
        -- left. assert (x = e) by congruence. subst x. rewrite Ep, Z.eqb_refl. apply orb_true_r.
        -- right. exists x. split; [|exact Ep]. rewrite zm_get_set by apply (ii_ridt _ _ _ I). destruct (Z.eqb_spec j r); [contradiction|exact Ex].
  - destruct R as (-> & S1). eexists _, _. split; [reflexivity|]. split; [exact EN|]. split; [exact FU|]. split; [reflexivity|].
    destruct I. constructor; rewrite ?ER, ?EA, ?EI, ?EN; auto. exists false, (tr ++ o). exact S1.
Qed.

(** ** Cleaning a zone *)

Lemma move_all_ok m bad z txg : 0 <= txg < TXG_MAX -> forall rids s,
  IInv s m (fun p => bad || in_zone v z p) -> full (dcl (dd s)) z ->
  (bad = false -> NoDup rids /\ forall r, In r rids -> exists e, zm_get r (ridt s) = Some e /\ in_zone v z (d_pba (e_drp e)) = true) ->
  match move_all K v junk rids txg s with
  | None => bad = true
  | Some (s', Err x) => x = ENOSPC /\ IInv s' m (fun p => bad || in_zone v z p) /\ next_rid s' = next_rid s
  | Some (s', Ok _) => IInv s' m (fun p => bad || in_zone v z p) /\ next_rid s' = next_rid s /\ full (dcl (dd s')) z /\
       forall r e, zm_get r (ridt s') = Some e -> in_zone v z (d_pba (e_drp e)) = true -> zm_get r (ridt s) = Some e /\ ~ In r rids
  end.
Proof.
  intros T. induction rids as [|r rids IH]; intros s I Fz EX; cbn [move_all].
  - split; [exact I|]. split; [reflexivity|]. split; [exact Fz|]. auto.
  - destruct (zm_get r (ridt s)) as [e|] eqn:E.
    2:{ unfold move_record. rewrite E. cbn [obind]. destruct bad; [reflexivity|]. destruct (EX eq_refl) as [_ X].
        destruct (X r (or_introl eq_refl)) as (e & Ee & _). congruence. }
    destruct (move_ok s m _ r e txg I E T) as (s1 & x & EM & EN & FU & R). rewrite EM. cbn [obind].
    destruct x as [n|q]; [|destruct R as (-> & I1); auto].
    destruct R as (NZ & ER & I1).
    assert (I1' : IInv s1 m (fun p => bad || in_zone v z p)).
    { eapply IInv_weaken; [exact I1|]. intros p Hp. apply orb_prop in Hp. destruct Hp as [Hp|Hp]; [exact Hp|].
      apply Z.eqb_eq in Hp. subst p. destruct bad; [reflexivity|]. destruct (EX eq_refl) as [_ X].
      destruct (X r (or_introl eq_refl)) as (e' & Ee & Z'). replace e with e' by congruence. exact Z'. }
    specialize (IH s1 I1' (FU z Fz)).
    assert (EX' : bad = false -> NoDup rids /\ forall r', In r' rids -> exists e, zm_get r' (ridt s1) = Some e /\ in_zone v z (d_pba (e_drp e)) = true).
    { intros B. destruct (EX B) as [ND X]. inversion ND; subst. split; [assumption|]. intros r' Hr'.
      destruct (X r' (or_intror Hr')) as (e' & Ee' & Z'). exists e'. split; [|exact Z']. rewrite ER, zm_get_set by apply (ii_ridt _ _ _ I).
      destruct (Z.eqb_spec r' r) as [->|]; [contradiction|exact Ee']. }
    specialize (IH EX'). destruct (move_all K v junk rids txg s1) as [[s2 [[]|q]]|]; [| |exact IH].
    + destruct IH as (I2 & N2 & F2 & H2). split; [exact I2|]. split; [lia|]. split; [exact F2|].
      intros r' e' Er' Z'. destruct (H2 r' e' Er' Z') as [H3 H4]. rewrite ER, zm_get_set in H3 by apply (ii_ridt _ _ _ I).
      destruct (Z.eqb_spec r' r) as [->|Nr].
      * injection H3 as <-. cbn [e_drp] in Z'. rewrite (NZ z Fz) in Z'. discriminate.
      * split; [exact H3|]. intros [->|X]; [contradiction|contradiction].
    + destruct IH as (-> & I2 & N2). split; [reflexivity|]. split; [exact I2|lia].
Qed.

Lemma listed s m st z r e : IInv s m st -> zm_get r (ridt s) = Some e -> in_zone v z (d_pba (e_drp e)) = true ->
  In r (list_indirect_records v z s).
Proof.
  intros I E Z0. unfold list_indirect_records. apply in_map_iff. exists (d_pba (e_drp e), r). split; [reflexivity|].
  apply filter_In. split; [|exact Z0]. apply zm_get_in. now apply (ii_at _ _ _ I).
Qed.

Lemma clean_ok s m bad z txg : 0 <= txg < TXG_MAX -> IInv s m (fun _ => bad) -> full (dcl (dd s)) z ->
  match clean_zone K v junk z txg s with
  | None => bad = true
  | Some (s', Err x) => x = ENOSPC /\ IInv s' m (fun _ => true) /\ next_rid s' = next_rid s
  | Some (s', Ok _) => IInv s' m (fun _ => bad) /\ next_rid s' = next_rid s /\
       forall r e, zm_get r (ridt s') = Some e -> in_zone v z (d_pba (e_drp e)) = false
  end.
Proof.
  intros T I Fz. unfold clean_zone.
  assert (IW : IInv s m (fun p => bad || in_zone v z p)) by (eapply IInv_weaken; [exact I|]; cbn; intros p ->; reflexivity).
  pose proof (move_all_ok m bad z txg T (list_indirect_records v z s) s IW Fz) as H.
  assert (EX : bad = false -> NoDup (list_indirect_records v z s) /\
            forall r, In r (list_indirect_records v z s) -> exists e, zm_get r (ridt s) = Some e /\ in_zone v z (d_pba (e_drp e)) = true).
  { intros ->.
    assert (IN : forall p r, In (p, r) (alloct s) -> exists e, zm_get r (ridt s) = Some e /\ d_pba (e_drp e) = p).
    { intros p r X. apply zm_in_get in X; [|apply (ii_alloct _ _ _ I)]. destruct (ii_ex _ _ _ I p r X) as [Y|Y]; [discriminate|exact Y]. }
    split.
    - unfold list_indirect_records. pose proof (ii_alloct _ _ _ I) as ZA. clear - IN ZA.
      induction (alloct s) as [|[p r] l IHl]; [constructor|]. apply zm_ok_cons in ZA. destruct ZA as [ZA FA]. cbn [filter fst].
      assert (IHl' := IHl (fun p r X => IN p r (or_intror X)) ZA).
      destruct (in_zone v z p); [|exact IHl']. cbn [map snd]. constructor; [|exact IHl'].
      intros X. apply in_map_iff in X. destruct X as ([p' r'] & E & X). cbn in E. subst r'. apply filter_In in X. destruct X as [X _].
      destruct (IN p r (or_introl eq_refl)) as (e & Ee & Ep). destruct (IN p' r (or_intror X)) as (e' & Ee' & Ep').
      rewrite Forall_forall in FA. specialize (FA _ X). cbn in FA. assert (e = e') by congruence. subst. lia.
    - intros r X. unfold list_indirect_records in X. apply in_map_iff in X. destruct X as ([p' r'] & E & X). cbn in E. subst r'.
      apply filter_In in X. destruct X as [X Z0]. cbn [fst] in Z0. destruct (IN p' r X) as (e & Ee & Ep). exists e. subst p'. auto. }
  specialize (H EX). destruct (move_all K v junk (list_indirect_records v z s) txg s) as [[s' [[]|x]]|]; cbn [obind].
  - destruct H as (I' & N' & F' & H').
    assert (OUT : forall r e, zm_get r (ridt s') = Some e -> in_zone v z (d_pba (e_drp e)) = false).
    { intros r e E. destruct (in_zone v z (d_pba (e_drp e))) eqn:X; [|reflexivity]. exfalso.
      destruct (H' r e E X) as [A B]. apply B. eapply listed; eauto. }
    split; [|split; [exact N'|exact OUT]].
    assert (GF : forall p, zm_get p (filter (fun q => negb (in_zone v z (fst q))) (alloct s')) = if in_zone v z p then None else zm_get p (alloct s')).
    { intros p. rewrite (zm_get_filter_key (fun q => negb (in_zone v z q))). destruct (in_zone v z p); reflexivity. }
    destruct I'. constructor; cbn [set_alloct dd ridt alloct next_rid icache]; auto.
    + now apply zm_ok_filter.
    + intros r e E. rewrite GF, (OUT r e E). auto.
    + intros p r E. rewrite GF in E. destruct (in_zone v z p) eqn:X; [discriminate|].
      destruct (ii_ex0 p r E) as [Y|Y]; [|now right]. rewrite X, orb_false_r in Y. now left.
  - destruct H as (-> & I' & N'). split; [reflexivity|]. split; [|exact N']. eapply IInv_weaken; [exact I'|]. reflexivity.
  - exact H.
Qed.

Lemma iadvance_ok s m st : IInv s m st -> IInv (idml_advance v junk s) m st.
Proof.
  intros I. destruct (ii_store _ _ _ I) as (cl & tr & S). pose proof (ii_dcache _ _ _ I) as DC. unfold idml_advance.
  destruct (dd s) as [c dk ch] eqn:ED. cbn [dcl disk dcache] in *. subst ch.
  destruct (advance_spec K v junk G c dk _ cl tr [] S) as (c' & dk' & o & E & S'). rewrite E.
  destruct I. constructor; cbn [set_dd dd ridt alloct next_rid icache dcl disk dcache]; auto. exists false, (tr ++ o). exact S'.
Qed.

Lemma iflush_ok s m st : IInv s m st -> exists s', idml_flush v junk s = Some s' /\ IInv s' m st /\ next_rid s' = next_rid s.
Proof.
  intros I. destruct (ii_store _ _ _ I) as (cl & tr & S). pose proof (ii_dcache _ _ _ I) as DC. unfold idml_flush.
  destruct (dd s) as [c dk ch] eqn:ED. cbn [dcl disk dcache] in *. subst ch.
  destruct (flush_store K v junk G c dk _ cl tr [] S) as (c' & o & E & S'). rewrite E. cbn [obind].
  eexists. split; [reflexivity|]. split; [|reflexivity].
  destruct I. constructor; cbn [set_dd dd ridt alloct next_rid icache dcl disk dcache]; auto. exists true, (tr ++ o). exact S'.
Qed.

Lemma check_true s m : IInv s m (fun _ => false) -> check_ridt s = Some true.
Proof.
  intros I. destruct (ii_store _ _ _ I) as (cl & tr & (live & P & R) & _). unfold check_ridt.
  rewrite (C14_used_is_exact v _ _ _ _ G R). cbn [obind]. f_equal.
  assert (E : sum_len live = fold_right (fun p a => asize (e_drp (snd p)) + a) 0 (ridt s)).
  { assert (X : sum_len live = sum_len (map ext (recs (ridt s) m))).
    { clear - P. induction P; cbn [sum_len fold_right] in *; unfold sum_len in *; cbn [fold_right]; try lia. }
    rewrite X. clear. induction (ridt s) as [|x l IH]; [reflexivity|]. cbn [recs map sum_len fold_right]. unfold sum_len, recs in IH. rewrite IH. reflexivity. }
  rewrite E, Z.eqb_refl, andb_true_r. apply andb_true_intro. split; apply forallb_forall.
  - intros [p r] X. cbn [fst snd]. apply zm_in_get in X; [|apply (ii_alloct _ _ _ I)].
    destruct (ii_ex _ _ _ I p r X) as [Y|(e & Ee & Ep)]; [discriminate|]. rewrite Ee, Ep. apply Z.eqb_refl.
  - intros [r e] X. cbn [snd]. apply zm_in_get in X; [|apply (ii_ridt _ _ _ I)].
    unfold zm_mem. now rewrite (ii_at _ _ _ I r e X).
Qed.

End IDML.
