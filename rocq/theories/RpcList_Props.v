(** C88: listing data sets through the daemon. *)
From Verif Require Import Common FSM_Model ZMap Prop_Model Prop_Props Forest_Model Forest_Props Rpc_Model.
From Coq Require Import Sorting.Sorted.

(** ** What is promised *)

(** The full name of a data set, with the pool's name *)
Definition full (pool : text) (p : path) : text := match p with [] => pool | _ => pool ++ SLASH :: show p end.

(** A state that some history of creations, destructions and mounts leads to, and
    the data sets of that history (C25) *)
Definition reached (H : text -> Z) (N : text -> Prop) (d : db) (ds : dsets) : Prop :=
  exists ops as_, Forall (good N) ops /\ zlen ops < 2 ^ 64 /\ sane_run H db_new [] ops /\
    fdos H db_new (map op_of ops) = Some (d, as_) /\ ds = after [] ops as_.

(** [p] is one to [depth] levels below [p0]. *)
Definition below (p0 : path) (depth : Z) (p : path) : Prop := exists r, p = p0 ++ r /\ 1 <= zlen r <= depth.

(** Every data set but the children of [p0] comes after its parent. *)
Definition parents_first (p0 : path) (l : list path) : Prop :=
  forall l1 q c l2, l = l1 ++ (q ++ [c]) :: l2 -> q = p0 \/ In q l1.

Section C88.
Context (H : text -> Z) (N : text -> Prop).
Hypothesis NC : forall c, N c -> clean c.
Hypothesis NZ : forall c, N c -> Forest_Props.h H c <> 0.
Hypothesis NI : forall c d, N c -> N d -> Forest_Props.h H c = Forest_Props.h H d -> c = d.
Notation h := (Forest_Props.h H).
Context (pool : text) (pv : db -> Z -> text -> pname -> property * psource) (K0 : controller db).
Context (qsize : request -> Z) (rsize : response -> Z) (euid uid : Z) (props : list pname).
Notation K := (forest_controller H pool pv K0).

(** *** Names *)
Lemma strip_full p : strip_pool_name pool (full pool p) = Some (show p).
Proof.
  unfold strip_pool_name, full. destruct p as [|c p].
  - rewrite <- (app_nil_r pool) at 2. now rewrite strip_prefix_app.
  - rewrite strip_prefix_app. reflexivity.
Qed.

Lemma full_snoc p c : full pool (p ++ [c]) = full pool p ++ SLASH :: c.
Proof.
  unfold full. destruct p as [|d p]; [reflexivity|]. cbn [app]. change (d :: p ++ [c]) with ((d :: p) ++ [c]).
  rewrite show_snoc by discriminate. now rewrite <- app_assoc.
Qed.

Lemma full_inj p q : Forall N p -> Forall N q -> full pool p = full pool q -> p = q.
Proof.
  intros Fp Fq E. assert (S : show p = show q). { pose proof (strip_full p) as A. rewrite E, strip_full in A. congruence. }
  apply (clean_path _ NC) in Fp, Fq. destruct p as [|c p], q as [|d q]; [reflexivity| | |].
  - symmetry in S. apply show_nil in S; [discriminate|exact Fq].
  - apply show_nil in S; [discriminate|exact Fp].
  - rewrite <- (split_show (c :: p)), <- (split_show (d :: q)) by (exact Fp || exact Fq || discriminate). now rewrite S.
Qed.

Lemma NoDup_map_on {A B} (f : A -> B) (l : list A) : (forall x y, In x l -> In y l -> f x = f y -> x = y) -> NoDup l -> NoDup (map f l).
Proof.
  induction l as [|x l IH]; intros I D; [constructor|]. inversion D as [|? ? D1 D2]; subst. cbn [map]. constructor.
  - intros Y. apply in_map_iff in Y. destruct Y as (y & E & Hy). apply I in E; [|now right|now left]. now subst.
  - apply IH; [|exact D2]. intros; apply I; auto; now right.
Qed.

Lemma Forall2_in_l {A B} (P : A -> B -> Prop) l m : Forall2 P l m -> forall x, In x l -> exists y, In y m /\ P x y.
Proof.
  induction 1 as [|x y l m Pxy F IH]; intros z Hz; [destruct Hz|]. destruct Hz as [<-|Hz]; [exists y; split; [now left|exact Pxy]|].
  destruct (IH z Hz) as (w & Hw & Pw). exists w. split; [now right|exact Pw].
Qed.

Lemma Forall2_len {A B} (P : A -> B -> Prop) l m : Forall2 P l m -> length l = length m.
Proof. induction 1; cbn [length]; congruence. Qed.

Lemma NoDup_snoc {A} (l : list A) x : NoDup l -> ~ In x l -> NoDup (l ++ [x]).
Proof.
  intros D X. apply (NoDup_Add (a := x) (l := l)); [|split; assumption]. rewrite <- (app_nil_r l) at 1. apply Add_app.
Qed.

Lemma Forall2_uncons {A B} (P : A -> B -> Prop) x y l m : Forall2 P (x :: l) (y :: m) -> P x y /\ Forall2 P l m.
Proof. inversion 1; auto. Qed.

(** *** States *)
Lemma reached_rel d ds : reached H N d ds -> exists n, Rel H N n (df d) ds /\ n < 2 ^ 64.
Proof.
  intros (ops & as_ & F & L & SA & E & ->).
  destruct (run_ok H N NC NZ NI ops 0 _ _ _ _ (DRel_init H N) ltac:(lia) ltac:(lia) F SA) as (d' & as' & m & E' & _ & R).
  rewrite E in E'. injection E' as <- <-. exists (0 + zlen ops). split; [apply R|lia].
Qed.

Lemma has_good d ds p : reached H N d ds -> has ds p -> Forall N p.
Proof. intros R [i Hi]. destruct (reached_rel _ _ R) as (n & Q & _). eapply r_good; eauto. Qed.

Lemma has_up d ds p s : reached H N d ds -> has ds (p ++ s) -> has ds p.
Proof.
  intros R. destruct (reached_rel _ _ R) as (n & Q & _). revert p. induction s as [|c s IH] using rev_ind; intros p Hp; [now rewrite app_nil_r in Hp|].
  destruct Hp as [k Hk]. rewrite app_assoc in Hk. apply (r_up _ _ _ _ _ Q) in Hk. auto.
Qed.

(** *** One page *)
Record page (ds : dsets) (p : path) (o : Z) (cs : list text) : Prop := {
  pg_sorted : StronglySorted (fun a b => h a < h b) cs;
  pg_sound : forall c, In c cs -> has ds (p ++ [c]) /\ o <= h c;
  pg_cover : forall c, has ds (p ++ [c]) -> o <= h c -> In c cs \/ cs <> [] /\ forall c', In c' cs -> h c' < h c
}.

Lemma ctl_list_ok d ds p offs : reached H N d ds -> Forall N p ->
  (~ has ds p /\ ctl_list_fs H pool d (full pool p) offs = Some (RErr (errno ENOENT))) \/
  (has ds p /\ exists l, ctl_list_fs H pool d (full pool p) offs = Some (ROk l) /\
     exists cs, page ds p (match offs with Some o => o | None => 0 end) cs /\
       firstn CHUNKQTY l = map (fun c => (full pool (p ++ [c]), h c + 1)) cs /\ (length cs <= CHUNKQTY)%nat).
Proof.
  intros R F. destruct (reached_rel _ _ R) as (n & Q & Hn). unfold ctl_list_fs. rewrite strip_full. unfold list_fs.
  destruct (lookup_ok H N NC NZ NI _ _ _ p Q F) as (par & oid & -> & X). cbn [obind]. destruct oid as [id|].
  2:{ left. split; [apply X|reflexivity]. }
  right. destruct X as [X _]. split; [now exists id|]. set (o := match offs with Some o => o | None => 0 end).
  destruct (entries_ok H N NC NZ NI _ _ _ p id o Q Hn X) as (l & E & SS & HL). rewrite E. cbn [obind res_of].
  eexists. split; [reflexivity|]. rewrite firstn_map. pose proof (firstn_skipn CHUNKQTY l) as FS.
  pose proof (firstn_le_length CHUNKQTY l) as LL.
  set (l1 := firstn CHUNKQTY l) in *. assert (L1 : l1 = [] -> l = []) by (unfold l1; destruct l; [reflexivity|discriminate]).
  clearbody l1. set (l2 := skipn CHUNKQTY l) in *. clearbody l2. subst l.
  exists (map (fun x => fst (fst x)) l1). split; [|split; [|now rewrite map_length]].
  - assert (HL1 : forall x, In x l1 -> snd x = h (fst (fst x)) + 1) by (intros [[c i] k] Hx; apply (HL c i k); apply in_or_app; now left).
    assert (HL2 : forall x, In x l2 -> snd x = h (fst (fst x)) + 1) by (intros [[c i] k] Hx; apply (HL c i k); apply in_or_app; now right).
    constructor.
    + assert (S1 : StronglySorted (fun x y : text * Z * Z => snd x < snd y) l1).
      { clear - SS. induction l1 as [|x l1 IH]; [constructor|]. cbn [app] in SS. inversion SS as [|? ? S F]; subst. constructor; [now apply IH|].
        apply Forall_app in F. apply F. }
      clear - S1 HL1. induction S1 as [|x l S IH F]; [constructor|]. cbn [map]. constructor; [apply IH; intros; apply HL1; now right|].
      rewrite Forall_forall in *. intros c Hc. apply in_map_iff in Hc. destruct Hc as (y & <- & Hy). specialize (F _ Hy).
      rewrite (HL1 x ltac:(now left)), (HL1 y ltac:(now right)) in F. lia.
    + intros c Hc. apply in_map_iff in Hc. destruct Hc as ([[c' i] k] & E' & Hx). cbn [fst] in E'. subst c'.
      destruct (proj1 (HL c i k) ltac:(apply in_or_app; now left)) as (A & _ & B). split; [now exists i|exact B].
    + intros c [i Hi] Ho. assert (Y : In (c, i, h c + 1) (l1 ++ l2)) by (apply HL; auto). apply in_app_or in Y. destruct Y as [Y|Y].
      * left. apply in_map_iff. now exists (c, i, h c + 1).
      * right. split.
        -- intros Z. apply map_eq_nil in Z. apply L1, app_eq_nil in Z. destruct Z as [_ Z]. rewrite Z in Y. destruct Y.
        -- intros c' Hc'. apply in_map_iff in Hc'. destruct Hc' as (x & <- & Hx). pose proof (proj2 (sorted_app _ _ SS) _ _ Hx Y) as Z.
           cbn [snd] in Z. rewrite (HL1 _ Hx) in Z. lia.
  - rewrite map_map. apply map_ext_in. intros [[c i] k] Hx. cbn [fst snd].
    destruct (proj1 (HL c i k) ltac:(apply in_or_app; now left)) as (A & -> & _).
    pose proof (r_good _ _ _ _ _ Q _ _ A) as G. apply good_snoc in G. destruct (NC c (proj2 G)) as [NE _].
    f_equal. rewrite full_snoc. destruct c; [contradiction|reflexivity].
Qed.

(** What a listing says about a data set: its name, and its properties at the time
    when they were read *)
Definition info (d : db) (ds : dsets) (i : dsinfo) (p : path) : Prop :=
  di_name i = full pool p /\ (props <> [] -> exists id, In (p, id) ds /\ di_props i = map (pv d id (full pool p)) props) /\ (props = [] -> di_props i = []).

Lemma get_props_ok d ds p ns : reached H N d ds -> Forall N p ->
  (ns <> [] /\ ~ has ds p /\ get_props K d (full pool p) ns = Some (RErr (errno ENOENT))) \/
  (ns = [] /\ get_props K d (full pool p) ns = Some (ROk [])) \/
  exists id, In (p, id) ds /\ get_props K d (full pool p) ns = Some (ROk (map (pv d id (full pool p)) ns)).
Proof.
  intros R F. destruct (reached_rel _ _ R) as (n & Q & Hn).
  destruct (lookup_ok H N NC NZ NI _ _ _ p Q F) as (par & oid & E & X).
  destruct ns as [|m ns]; [right; left; auto|]. destruct oid as [id|].
  - right. right. exists id. split; [apply X|]. set (ms := m :: ns). clearbody ms. clear m ns. induction ms as [|m ns IH]; [reflexivity|].
    cbn [get_props forest_controller k_get_prop] in *. unfold ctl_get_prop at 1. rewrite strip_full, E. cbn [obind]. rewrite IH. reflexivity.
  - left. split; [discriminate|]. split; [apply X|]. cbn [get_props forest_controller k_get_prop]. unfold ctl_get_prop. rewrite strip_full, E. reflexivity.
Qed.

Lemma with_props_ok d ds p cs : reached H N d ds -> Forall N p -> Forall N cs ->
  exists r, with_props K d props (map (fun c => (full pool (p ++ [c]), h c + 1)) cs) = Some r /\
    match r with
    | ROk is => Forall2 (fun i c => info d ds i (p ++ [c]) /\ di_offs i = h c + 1) is cs
    | RErr _ => exists c, In c cs /\ ~ has ds (p ++ [c])
    end.
Proof.
  intros R Fp. induction cs as [|c cs IH]; intros F.
  - exists (ROk []). split; [reflexivity|constructor].
  - inversion F as [|? ? Nc F']; subst. destruct (IH F') as (r & E & X). cbn [map with_props].
    assert (Fc : Forall N (p ++ [c])) by (apply Forall_app; auto).
    destruct (get_props_ok d ds (p ++ [c]) props R Fc) as [(A & B & ->)|[(A & ->)|(id & A & ->)]]; cbn [obind].
    + eexists. split; [reflexivity|]. exists c. split; [now left|exact B].
    + rewrite E. cbn [obind]. destruct r as [is|e]; (eexists; split; [reflexivity|]).
      * constructor; [|exact X]. split; [|reflexivity]. split; [reflexivity|]. split; [congruence|reflexivity].
      * destruct X as (c' & H1 & H2). exists c'. split; [now right|exact H2].
    + rewrite E. cbn [obind]. destruct r as [is|e]; (eexists; split; [reflexivity|]).
      * constructor; [|exact X]. split; [|reflexivity]. split; [reflexivity|]. split; [intros _; exists id; auto|].
        intros Z. rewrite Z. reflexivity.
      * destruct X as (c' & H1 & H2). exists c'. split; [now right|exact H2].
Qed.

(** The messages about the data sets of [ds] fit. *)
Definition fits (ds : dsets) : Prop :=
  (forall p offs, has ds p -> qsize (QFsList (full pool p) props offs) < BUFSIZ /\ qsize (QFsStat (full pool p) props) < BUFSIZ) /\
  (forall is, (forall i, In i is -> exists p, has ds p /\ di_name i = full pool p) -> (length is <= CHUNKQTY)%nat -> rsize (PFsList (ROk is)) < BUFSIZ) /\
  (forall p vs, has ds p -> rsize (PFsStat (ROk (mkdi (full pool p) vs 0))) < BUFSIZ).

Notation asklist s s' name offs := (ask K qsize rsize euid uid into_fs_list s s' (QFsList name props offs)).

Lemma ask_list_ok d ds d' ds' p offs : reached H N d ds -> reached H N d' ds' -> Forall N p ->
  exists r, asklist d d' (full pool p) offs = Some (d, r) /\
    match r with
    | COk is => has ds p /\ exists cs, page ds p (match offs with Some o => o | None => 0 end) cs /\
        Forall2 (fun i c => info d' ds' i (p ++ [c]) /\ di_offs i = h c + 1) is cs
    | CErr _ => ~ (has ds p /\ (forall c, has ds (p ++ [c]) -> has ds' (p ++ [c])) /\ fits ds)
    end.
Proof.
  intros R R' F. unfold ask, call.
  destruct (Z.leb_spec BUFSIZ (qsize (QFsList (full pool p) props offs))) as [B|B].
  { exists (CErr NoResponse). split; [reflexivity|]. intros (A & _ & F1 & _). destruct (F1 p offs A). lia. }
  cbn [process_rpc forest_controller k_list_fs].
  destruct (ctl_list_ok d ds p offs R F) as [(A & ->)|(A & l & -> & cs & PG & EF & LC)]; cbn [obind].
  - destruct (BUFSIZ <=? rsize (PFsList (RErr (errno ENOENT)))); cbn [obind into_fs_list]; eexists; (split; [reflexivity|]); cbn beta iota; tauto.
  - rewrite EF. clear EF. assert (FC : Forall N cs).
    { apply Forall_forall. intros c Hc. apply (pg_sound _ _ _ _ PG) in Hc. destruct Hc as [Hc _]. apply (has_good _ _ _ R) in Hc. now apply good_snoc in Hc. }
    destruct (with_props_ok d' ds' p cs R' F FC) as (r & E & X). rewrite E. cbn [obind]. destruct r as [is|e].
    + destruct (Z.leb_spec BUFSIZ (rsize (PFsList (ROk is)))) as [G|G]; cbn [obind into_fs_list]; eexists; (split; [reflexivity|]); cbn beta iota.
      * intros (_ & _ & _ & F2 & _). specialize (F2 is). apply Z.lt_nge in F2; [contradiction| |].
        -- intros i Hi. apply (Forall2_in_l _ _ _ X) in Hi. destruct Hi as (c & Hc & (I1 & _) & _). exists (p ++ [c]).
           split; [apply (pg_sound _ _ _ _ PG), Hc|exact I1].
        -- rewrite (Forall2_len _ _ _ X). exact LC.
      * split; [exact A|]. exists cs. split; [exact PG|]. exact X.
    + destruct X as (c & Hc & Nh).
      assert (Z : ~ (has ds p /\ (forall c, has ds (p ++ [c]) -> has ds' (p ++ [c])) /\ fits ds)).
      { intros (_ & U & _). apply Nh, U. apply (pg_sound _ _ _ _ PG), Hc. }
      destruct (BUFSIZ <=? rsize (PFsList (RErr e))); cbn [obind into_fs_list]; eexists; (split; [reflexivity|]); exact Z.
Qed.

(** *** The listing as it goes on *)
Context (w : nat -> db * db) (Dl Dp : nat -> dsets).
Hypothesis RL : forall n, reached H N (fst (w n)) (Dl n).
Hypothesis RP : forall n, reached H N (snd (w n)) (Dp n).
Context (p0 : path) (depth : Z).
Hypothesis G0 : Forall N p0.

Definition lv (p : path) : Z := zlen p - zlen p0.
Definition oval (o : option Z) : Z := match o with Some o => o | None => 0 end.
Definition always (p : path) : Prop := forall m, has (Dl m) p.
Definition qof (Q : list path) : list (Z * text) := map (fun p => (depth - lv p, full pool p)) Q.

Record Inv (E done Q : list path) (cs : list text) (offs : option Z) : Prop := {
  i_queue : done ++ Q = if 0 <? depth then p0 :: filter (fun p => lv p <? depth) E else [];
  i_e0 : 0 < depth \/ E = [];
  i_nodup : NoDup E;
  i_par : forall p, In p E -> exists q c, p = q ++ [c] /\ (In q done \/ exists Q' o, Q = q :: Q' /\ offs = Some o /\ h c < o);
  i_below : forall p, In p E -> below p0 depth p /\ Forall N p /\ exists m, has (Dl m) p;
  i_cs : cs <> [] -> exists q Q', Q = q :: Q' /\ StronglySorted (fun a b => h a < h b) cs /\
    forall c, In c cs -> oval offs <= h c /\ exists m, has (Dl m) (q ++ [c]);
  i_done : forall q c, In q done -> always (q ++ [c]) -> In (q ++ [c]) E;
  i_cur : forall q Q' c, Q = q :: Q' -> always (q ++ [c]) -> In (q ++ [c]) E \/ In c cs \/ oval offs <= h c /\ forall c', In c' cs -> h c' < h c;
  i_first : parents_first p0 E
}.

Lemma lv_app r : lv (p0 ++ r) = zlen r.
Proof. unfold lv. rewrite zlen_app. lia. Qed.

(** What is in the queue is above the last level. *)
Lemma queue_ok E done Q cs offs : Inv E done Q cs offs -> NoDup (done ++ Q) /\
  forall q, In q (done ++ Q) -> Forall N q /\ (q = p0 \/ In q E) /\ 0 < depth /\ exists r, q = p0 ++ r /\ zlen r < depth.
Proof.
  intros I. rewrite (i_queue _ _ _ _ _ I). destruct (Z.ltb_spec 0 depth) as [D|]; [|split; [constructor|intros q []]]. split.
  - constructor; [|apply NoDup_filter, I]. intros X. apply filter_In in X. destruct X as [X _]. apply (i_below _ _ _ _ _ I) in X.
    destruct X as ((r & E1 & E2) & _). rewrite <- (app_nil_r p0) in E1 at 1. apply app_inv_head in E1. subst r. rewrite zlen_nil in E2. lia.
  - intros q [<-|X]; [split; [exact G0|]; split; [now left|]; split; [exact D|]; exists []; rewrite app_nil_r, zlen_nil; auto|].
    apply filter_In in X. destruct X as [X L]. apply Z.ltb_lt in L. destruct (i_below _ _ _ _ _ I _ X) as ((r & -> & E2) & F & _).
    split; [exact F|]. split; [now right|]. split; [exact D|]. exists r. rewrite lv_app in L. auto.
Qed.

Lemma page_inv E done q Q offs m cs : Inv E done (q :: Q) [] offs -> page (Dl m) q (oval offs) cs ->
  if cs then Inv E (done ++ [q]) Q [] None else Inv E done (q :: Q) cs offs.
Proof.
  intros I PG. destruct (queue_ok _ _ _ _ _ I) as [ND QO]. destruct cs as [|c0 cs0] eqn:EC.
  - constructor; try apply I.
    + rewrite <- app_assoc. apply I.
    + intros p Hp. destruct (i_par _ _ _ _ _ I p Hp) as (q' & c & -> & [X|(Q' & o & X & _)]); exists q', c; (split; [reflexivity|]); left; apply in_or_app; [now left|].
      injection X as <- _. right. now left.
    + intros X. contradiction.
    + intros q' c Hq A. apply in_app_or in Hq. destruct Hq as [Hq|[<-|[]]]; [now apply (i_done _ _ _ _ _ I)|].
      destruct (i_cur _ _ _ _ _ I q Q c eq_refl A) as [X|[[]|[X _]]]; [exact X|].
      destruct (pg_cover _ _ _ _ PG c (A m) X) as [[]|[Y _]]. contradiction.
    + intros q' Q' c _ A. right. right. split; [|intros c' []]. cbn [oval].
      pose proof (has_good _ _ _ (RL m) (A m)) as G. apply good_snoc in G. pose proof (h_range H N NC NZ NI c (proj2 G)). lia.
  - rewrite <- EC in *. clear EC c0 cs0. constructor; try apply I.
    + intros NE. exists q, Q. split; [reflexivity|]. split; [apply PG|]. intros c Hc. destruct (pg_sound _ _ _ _ PG c Hc). split; [assumption|]. now exists m.
    + intros q' Q' c [= <- <-] A. destruct (i_cur _ _ _ _ _ I q Q c eq_refl A) as [X|[[]|[X _]]]; [now left|]. right.
      destruct (pg_cover _ _ _ _ PG c (A m) X) as [Y|[_ Y]]; [now left|]. right. auto.
Qed.

Lemma pop_inv E done q Q c cs offs : Inv E done (q :: Q) (c :: cs) offs ->
  Inv (E ++ [q ++ [c]]) done (q :: Q ++ (if 1 <? depth - lv q then [q ++ [c]] else [])) cs (Some (h c + 1)).
Proof.
  intros I. destruct (queue_ok _ _ _ _ _ I) as [ND QO]. destruct (QO q ltac:(apply in_or_app; right; now left)) as (Gq & Qq & D & r & Er & Lr).
  destruct (i_cs _ _ _ _ _ I ltac:(discriminate)) as (q' & Q' & [= <- <-] & SS & SC). apply StronglySorted_inv in SS. destruct SS as [SS' FA]. rewrite Forall_forall in FA.
  destruct (SC c ltac:(now left)) as [Oc (m & Hm)].
  assert (Nc : N c) by (pose proof (has_good _ _ _ (RL m) Hm) as G; apply good_snoc in G; apply G).
  assert (LV : lv (q ++ [c]) = lv q + 1) by (unfold lv; rewrite zlen_app, zlen_cons, zlen_nil; lia).
  constructor.
  - pose proof (i_queue _ _ _ _ _ I) as IQ. destruct (Z.ltb_spec 0 depth) as [_|]; [|lia]. rewrite filter_app. cbn [filter].
    rewrite LV, app_comm_cons, app_assoc, IQ. cbn [app]. do 2 f_equal.
    destruct (Z.ltb_spec 1 (depth - lv q)), (Z.ltb_spec (lv q + 1) depth); (reflexivity || lia).
  - now left.
  - apply NoDup_snoc; [apply I|]. intros X. destruct (i_par _ _ _ _ _ I _ X) as (q' & c' & E1 & Y).
    apply app_inj_tail in E1. destruct E1 as [<- <-]. destruct Y as [Y|(Q' & o & [= <-] & -> & Y)].
    + apply NoDup_remove_2 in ND. apply ND. apply in_or_app. now left.
    + cbn [oval] in Oc. lia.
  - intros p Hp. apply in_app_or in Hp. destruct Hp as [Hp|[<-|[]]].
    + destruct (i_par _ _ _ _ _ I _ Hp) as (q' & c' & -> & Y). exists q', c'. split; [reflexivity|]. destruct Y as [Y|(Q' & o & [= <- <-] & -> & Y)]; [now left|].
      right. do 2 eexists. split; [reflexivity|]. split; [reflexivity|]. cbn [oval] in Oc. lia.
    + exists q, c. split; [reflexivity|]. right. do 2 eexists. split; [reflexivity|]. split; [reflexivity|]. lia.
  - intros p Hp. apply in_app_or in Hp. destruct Hp as [Hp|[<-|[]]]; [now apply (i_below _ _ _ _ _ I)|].
    split; [|split; [apply Forall_app; auto|now exists m]]. exists (r ++ [c]). rewrite Er, <- app_assoc. split; [reflexivity|].
    rewrite zlen_app, zlen_cons, zlen_nil. pose proof (zlen_nonneg r). lia.
  - intros NE. do 2 eexists. split; [reflexivity|]. split; [exact SS'|]. intros c' Hc'. cbn [oval]. split; [specialize (FA _ Hc'); lia|].
    apply SC. now right.
  - intros q' c' Hq A. apply in_or_app. left. now apply (i_done _ _ _ _ _ I).
  - intros q' Q' c' [= <- _] A. destruct (i_cur _ _ _ _ _ I q Q c' eq_refl A) as [X|[[<-|X]|[X Y]]].
    + left. apply in_or_app. now left.
    + left. apply in_or_app. right. now left.
    + right. now left.
    + right. right. cbn [oval]. pose proof (Y c ltac:(now left)). split; [lia|]. intros c'' Hc''. apply Y. now right.
  - intros l1 q' c' l2 EQ. destruct l2 as [|y l2 _] using rev_ind.
    + apply app_inj_tail in EQ. destruct EQ as [<- EQ]. apply app_inj_tail in EQ. destruct EQ as [<- <-]. exact Qq.
    + rewrite app_comm_cons, app_assoc in EQ. apply app_inj_tail in EQ. destruct EQ as [EQ _]. eapply (i_first _ _ _ _ _ I), EQ.
Qed.

(** What is waiting to be given out are children of the data set at the head of
    the queue. *)
Definition pending (Q : list path) (cs : list text) (s : lstate) : Prop :=
  match cs with
  | [] => ls_res s = []
  | _ => exists q Q' m, Q = q :: Q' /\ ls_depth s = depth - lv q /\
      Forall2 (fun i c => info (snd (w m)) (Dp m) i (q ++ [c]) /\ di_offs i = h c + 1) (ls_res s) cs
  end.

(** Nothing changes and the messages fit. *)
Definition quiet : Prop := (forall n, Dl n = Dl 0%nat /\ Dp n = Dl 0%nat) /\ fits (Dl 0%nat) /\ has (Dl 0%nat) p0.

Lemma fill_inv : forall Q E done offs n, Inv E done Q [] offs ->
  exists n' f, fill K qsize rsize euid uid w n props (qof Q) offs = Some (n', f) /\
    match f with
    | FDone => exists done' o, Inv E done' [] [] o
    | FFail _ => ~ quiet
    | FGot s => exists done' Q' cs, Inv E done' Q' cs (ls_offs s) /\ ls_q s = qof Q' /\ cs <> [] /\ pending Q' cs s
    end.
Proof.
  induction Q as [|q Q IH]; intros E done offs n I.
  - exists n, FDone. split; [reflexivity|]. eauto.
  - cbn [qof map fill]. destruct (queue_ok _ _ _ _ _ I) as [ND QO]. destruct (QO q ltac:(apply in_or_app; right; now left)) as (Gq & Qq & D & _).
    destruct (ask_list_ok _ _ _ _ q offs (RL n) (RP n) Gq) as (r & -> & X). cbn [obind]. destruct r as [is|e].
    + destruct X as (_ & cs & PG & F2). change (match offs with Some o => o | None => 0 end) with (oval offs) in PG.
      pose proof (page_inv _ _ _ _ _ _ _ I PG) as I'. destruct F2 as [|i c is cs IC F2].
      * apply (IH _ _ _ _ I').
      * do 2 eexists. split; [reflexivity|]. exists done, (q :: Q), (c :: cs). cbn [ls_offs ls_q]. split; [exact I'|]. split; [reflexivity|].
        split; [discriminate|]. cbn [pending ls_depth ls_res]. exists q, Q, n. split; [reflexivity|]. split; [reflexivity|]. now constructor.
    + do 2 eexists. split; [reflexivity|]. cbn beta iota. intros (W & FI & H0). apply X. destruct (W n) as [-> ->].
      split; [|split; [auto|exact FI]]. destruct Qq as [->|Qq]; [exact H0|]. apply (i_below _ _ _ _ _ I) in Qq. destruct Qq as (_ & _ & m & Hm).
      now rewrite (proj1 (W m)) in Hm.
Qed.

Lemma children_inv : forall fuel E done Q cs s n, Inv E done Q cs (ls_offs s) -> ls_q s = qof Q -> pending Q cs s ->
  exists l x E', children K qsize rsize euid uid w fuel n props s = Some (l, x) /\
    Forall2 (fun i p => exists m, info (snd (w m)) (Dp m) i p) l E' /\
    (exists done' Q' cs' offs', Inv (E ++ E') done' Q' cs' offs' /\ (x = Finished -> Q' = [])) /\
    (quiet -> x = Finished \/ x = More /\ length E' = fuel).
Proof.
  induction fuel as [|fu IH]; intros E done Q cs s n I EQ P.
  - exists [], More, []. split; [reflexivity|]. split; [constructor|]. split; [|auto]. rewrite app_nil_r. do 4 eexists. split; [exact I|discriminate].
  - cbn [children].
    assert (X : exists n' f, match ls_res s with [] => fill K qsize rsize euid uid w n props (ls_q s) (ls_offs s) | _ :: _ => Some (n, FGot s) end = Some (n', f) /\
      match f with
      | FDone => exists done' o, Inv E done' [] [] o
      | FFail _ => ~ quiet
      | FGot s => exists done' Q' cs, Inv E done' Q' cs (ls_offs s) /\ ls_q s = qof Q' /\ cs <> [] /\ pending Q' cs s
      end).
    { destruct cs as [|c cs].
      - cbn [pending] in P. rewrite P, EQ. now apply (fill_inv _ _ done).
      - pose proof P as P'. destruct P' as (q & Q' & m & _ & _ & F2). inversion F2 as [E1|i c' is cs' A B E1]; subst c' cs'.
        do 2 eexists. split; [reflexivity|]. exists done, Q, (c :: cs). split; [exact I|]. split; [exact EQ|]. split; [discriminate|exact P]. }
    destruct X as (n' & f & -> & X). cbn [obind]. destruct f as [|e|s'].
    + exists [], Finished, []. split; [reflexivity|]. split; [constructor|]. split; [|auto]. rewrite app_nil_r. destruct X as (done' & o & I').
      do 4 eexists. split; [exact I'|reflexivity].
    + exists [], (Failed e), []. split; [reflexivity|]. split; [constructor|]. split; [|intros Qu; contradiction].
      rewrite app_nil_r. do 4 eexists. split; [exact I|discriminate].
    + clear I EQ P done Q cs. destruct X as (done & Q & cs & I & EQ & NE & P). destruct cs as [|c cs]; [contradiction|].
      destruct P as (q & Q' & m & -> & ED & F2). unfold pop. destruct (ls_res s') as [|i is]; [inversion F2|].
      assert (F3 := Forall2_uncons _ _ _ _ _ F2). clear F2. destruct F3 as [[IC IO] F2]. cbn [obind].
      pose proof (pop_inv _ _ _ _ _ _ _ I) as I'. set (Q2 := Q' ++ (if 1 <? depth - lv q then [q ++ [c]] else [])) in *.
      set (s2 := mkls (Some (di_offs i)) _ is (ls_depth s')).
      assert (EQ2 : ls_q s2 = qof (q :: Q2)).
      { cbn [s2 ls_q]. rewrite ED, EQ. unfold Q2. unfold qof. cbn [map]. rewrite map_app. destruct (1 <? depth - lv q); cbn [map app].
        - rewrite (proj1 IC). replace (depth - lv (q ++ [c])) with (depth - lv q - 1); [reflexivity|]. unfold lv. rewrite zlen_app, zlen_cons, zlen_nil. lia.
        - now rewrite app_nil_r. }
      destruct (IH (E ++ [q ++ [c]]) done (q :: Q2) cs s2 n') as (l & x & E' & -> & G2 & G3 & G4).
      { cbn [s2 ls_offs]. rewrite IO. exact I'. }
      { exact EQ2. }
      { destruct cs as [|c1 cs]; [cbn [pending]; destruct is; [reflexivity|inversion F2]|]. exists q, Q2, m. auto. }
      cbn [obind]. exists (i :: l), x, ((q ++ [c]) :: E'). split; [reflexivity|]. split; [constructor; [now exists m|exact G2]|].
      split; [now rewrite <- app_assoc in G3|]. intros Qu. destruct (G4 Qu) as [->|[-> <-]]; [now left|]. right. auto.
Qed.

Lemma Inv_init : Inv [] [] (if 0 <? depth then [p0] else []) [] None.
Proof.
  constructor.
  - destruct (0 <? depth); reflexivity.
  - now right.
  - constructor.
  - intros p [].
  - intros p [].
  - intros NE. now contradiction NE.
  - intros q c [].
  - intros q Q c _ A. right. right. split; [|intros c' []]. cbn [oval].
    pose proof (has_good _ _ _ (RL 0) (A 0%nat)) as G. apply good_snoc in G. pose proof (h_range H N NC NZ NI c (proj2 G)). lia.
  - intros l1 q c l2 E. destruct l1; discriminate.
Qed.

Lemma stat_ok d ds d' ds' : reached H N d ds -> reached H N d' ds' ->
  exists r, ask K qsize rsize euid uid into_fs_stat d d' (QFsStat (full pool p0) props) = Some (d, r) /\
    match r with
    | COk i => info d' ds' i p0
    | CErr _ => ~ (has ds' p0 /\ fits ds')
    end.
Proof.
  intros R R'. unfold ask, call. destruct (Z.leb_spec BUFSIZ (qsize (QFsStat (full pool p0) props))) as [B|B].
  { eexists. split; [reflexivity|]. cbn beta iota. intros (A & F1 & _). destruct (F1 p0 None A). lia. }
  cbn [process_rpc]. destruct (get_props_ok d' ds' p0 props R' G0) as [(A & A2 & ->)|[(A & ->)|(id & A & ->)]]; cbn [obind].
  - destruct (BUFSIZ <=? _); cbn [obind into_fs_stat]; eexists; (split; [reflexivity|]); cbn beta iota; tauto.
  - destruct (Z.leb_spec BUFSIZ (rsize (PFsStat (ROk (mkdi (full pool p0) [] 0))))) as [G|G]; cbn [obind into_fs_stat]; eexists; (split; [reflexivity|]); cbn beta iota.
    + intros (A1 & _ & _ & F3). specialize (F3 p0 [] A1). lia.
    + split; [reflexivity|]. split; [congruence|reflexivity].
  - destruct (Z.leb_spec BUFSIZ (rsize (PFsStat (ROk (mkdi (full pool p0) (map (pv d' id (full pool p0)) props) 0))))) as [G|G]; cbn [obind into_fs_stat]; eexists; (split; [reflexivity|]); cbn beta iota.
    + intros (A1 & _ & _ & F3). specialize (F3 p0 (map (pv d' id (full pool p0)) props) A1). lia.
    + split; [reflexivity|]. split; [intros _; now exists id|]. intros ->. reflexivity.
Qed.

(** Whatever happens to the data sets meanwhile, a listing gives names of data sets
    that existed when it asked, from one to [depth] levels below the one that was
    asked for (which comes first), none twice and parents before children.  If it
    ends without an error, it gave every data set at these levels that was there
    all the time. *)
Theorem C88_while_in_use fuel : exists l x, fs_list K qsize rsize euid uid w fuel (full pool p0) props None depth = Some (l, x) /\
  (l = [] -> exists e, x = Failed e) /\
  forall i l', l = i :: l' -> exists ps, map di_name l = map (full pool) (p0 :: ps) /\ NoDup (map di_name l) /\
    Forall2 (fun i p => exists m, info (snd (w m)) (Dp m) i p) l (p0 :: ps) /\
    (forall p, In p ps -> below p0 depth p /\ exists m, has (Dl m) p) /\ parents_first p0 ps /\
    (x = Finished -> forall p, below p0 depth p -> (forall m, has (Dl m) p) -> In p ps).
Proof.
  unfold fs_list. destruct (stat_ok _ _ _ _ (RL 0) (RP 0)) as (r & -> & X). cbn [obind]. destruct r as [i|e].
  2:{ do 2 eexists. split; [reflexivity|]. split; [eauto|]. discriminate. }
  destruct (children_inv fuel [] [] (if 0 <? depth then [p0] else []) [] (mkls None (if 0 <? depth then [(depth, full pool p0)] else []) [] (Z.max 0 (depth - 1))) 1)
    as (l & x & E & -> & F2 & (done & Q & cs & offs & I & FI) & _).
  { exact Inv_init. }
  { cbn [ls_q]. destruct (0 <? depth); [|reflexivity]. cbn [qof map]. unfold lv. now rewrite Z.sub_diag, Z.sub_0_r. }
  { reflexivity. }
  cbn [obind app] in *. do 2 eexists. split; [reflexivity|]. split; [discriminate|]. intros i' l' [= <- <-]. exists E.
  assert (EN : map di_name (i :: l) = map (full pool) (p0 :: E)).
  { cbn [map]. f_equal; [apply X|]. clear - F2. induction F2 as [|j p l E (m & A) F2 IH]; [reflexivity|]. cbn [map]. f_equal; [apply A|exact IH]. }
  split; [exact EN|]. rewrite EN. split.
  { apply NoDup_map_on.
    - intros p q Hp Hq. apply full_inj.
      + destruct Hp as [<-|Hp]; [exact G0|]. now apply (i_below _ _ _ _ _ I).
      + destruct Hq as [<-|Hq]; [exact G0|]. now apply (i_below _ _ _ _ _ I).
    - constructor; [|apply I]. intros Y. apply (i_below _ _ _ _ _ I) in Y. destruct Y as ((r & E1 & E2) & _).
      rewrite <- (app_nil_r p0) in E1 at 1. apply app_inv_head in E1. subst r. rewrite zlen_nil in E2. lia. }
  split; [constructor; [now exists 0%nat|exact F2]|]. split.
  { intros p Hp. destruct (i_below _ _ _ _ _ I _ Hp) as (A & _ & B). auto. }
  split; [apply I|]. intros Fx. specialize (FI Fx). subst Q. intros p (r & -> & Lr) A. revert Lr A.
  induction r as [|c r IH] using rev_ind; intros Lr A; [rewrite zlen_nil in Lr; lia|]. rewrite zlen_app, zlen_cons, zlen_nil in Lr.
  pose proof (zlen_nonneg r). rewrite app_assoc. apply (i_done _ _ _ _ _ I); [|now rewrite <- app_assoc].
  pose proof (i_queue _ _ _ _ _ I) as IQ. rewrite app_nil_r in IQ. rewrite IQ. destruct (Z.ltb_spec 0 depth); [|lia].
  destruct r as [|d r0] eqn:Er; [left; now rewrite app_nil_r|]. right. apply filter_In. rewrite <- Er in *. split.
  - apply IH; [subst r; rewrite zlen_cons in *; pose proof (zlen_nonneg r0); lia|]. intros m. apply (has_up _ _ _ [c] (RL m)). rewrite <- app_assoc. apply A.
  - rewrite lv_app. apply Z.ltb_lt. lia.
Qed.

(** When nothing changes meanwhile and the messages fit, a listing ends, and gives
    exactly the data sets at these levels. *)
Lemma quiet_ok fuel : quiet -> (length (Dl 0%nat) < fuel)%nat ->
  exists l, fs_list K qsize rsize euid uid w fuel (full pool p0) props None depth = Some (l, Finished).
Proof.
  intros Qu L. unfold fs_list. destruct (stat_ok _ _ _ _ (RL 0) (RP 0)) as (r & -> & X). cbn [obind]. destruct r as [i|e].
  2:{ exfalso. apply X. destruct Qu as (W & FI & H0). rewrite (proj2 (W 0%nat)). auto. }
  destruct (children_inv fuel [] [] (if 0 <? depth then [p0] else []) [] (mkls None (if 0 <? depth then [(depth, full pool p0)] else []) [] (Z.max 0 (depth - 1))) 1)
    as (l & x & E & -> & F2 & (done & Q & cs & offs & I & FI) & FX).
  { exact Inv_init. }
  { cbn [ls_q]. destruct (0 <? depth); [|reflexivity]. cbn [qof map]. unfold lv. now rewrite Z.sub_diag, Z.sub_0_r. }
  { reflexivity. }
  cbn [obind app] in *. destruct (FX Qu) as [->|[-> LE]]; [eauto|]. exfalso.
  assert (IN : incl E (map fst (Dl 0%nat))).
  { intros p Hp. destruct (i_below _ _ _ _ _ I _ Hp) as (_ & _ & m & id & Hm). rewrite (proj1 (proj1 Qu m)) in Hm. apply in_map_iff. now exists (p, id). }
  apply NoDup_incl_length in IN; [|apply I]. rewrite map_length in IN. lia.
Qed.
End C88.

Theorem C88_listing_partial (H : text -> Z) (N : text -> Prop) : (forall c, N c -> clean c) -> (forall c, N c -> Forest_Props.h H c <> 0) ->
  (forall c d, N c -> N d -> Forest_Props.h H c = Forest_Props.h H d -> c = d) ->
  forall pool pv K0 qsize rsize euid uid props d ds p0 depth fuel,
  reached H N d ds -> has ds p0 -> fits pool qsize rsize props ds -> (length ds < fuel)%nat ->
  exists l ps, fs_list (forest_controller H pool pv K0) qsize rsize euid uid (fun _ => (d, d)) fuel (full pool p0) props None depth = Some (l, Finished) /\
    map di_name l = map (full pool) (p0 :: ps) /\ NoDup (map di_name l) /\
    (forall p, In p ps <-> has ds p /\ below p0 depth p) /\ parents_first p0 ps /\
    Forall2 (fun i p => exists id, In (p, id) ds /\ di_props i = map (pv d id (full pool p)) props) l (p0 :: ps).
Proof.
  intros NC NZ NI pool pv K0 qsize rsize euid uid props d ds p0 depth fuel R H0 FI L.
  assert (G0 : Forall N p0) by (eapply has_good; eauto).
  assert (RR : forall n : nat, reached H N d ds) by auto.
  destruct (quiet_ok H N NC NZ NI pool pv K0 qsize rsize euid uid props (fun _ => (d, d)) (fun _ => ds) (fun _ => ds) RR RR p0 depth G0 fuel) as (l & E).
  { split; [auto|]. auto. }
  { exact L. }
  destruct (C88_while_in_use H N NC NZ NI pool pv K0 qsize rsize euid uid props (fun _ => (d, d)) (fun _ => ds) (fun _ => ds) RR RR p0 depth G0 fuel)
    as (l' & x & E' & B1 & B2). rewrite E in E'. injection E' as <- <-. destruct l as [|i l]; [destruct (B1 eq_refl); discriminate|].
  destruct (B2 i l eq_refl) as (ps & C1 & C2 & C3 & C4 & C5 & C6). exists (i :: l), ps. split; [exact E|]. split; [exact C1|]. split; [exact C2|]. split; [|split; [exact C5|]].
  - intros p. split.
    + intros Hp. destruct (C4 _ Hp) as [A [_ B]]. auto.
    + intros [A B]. now apply C6.
  - clear - C3 C4 H0. assert (AL : forall p, In p (p0 :: ps) -> has ds p) by (intros p [<-|Hp]; [exact H0|destruct (C4 _ Hp) as [_ [_ B]]; exact B]).
    clear C4 H0. induction C3 as [|j p l0 E (m & A) F2 IH]; [constructor|]. constructor; [|apply IH; intros; apply AL; now right].
    destruct A as (_ & A2 & A3). destruct props as [|n ns]; [|apply A2; discriminate]. destruct (AL p ltac:(now left)) as [id Hid]. exists id.
    split; [exact Hid|]. now rewrite A3.
Qed.

(** ** What is not promised by the code *)

(** A controller of which only the data sets matter *)
Definition nothing : controller db := {|
  k_drop_cache := fun d => d; k_create_fs := fun d _ => Some (d, RErr 2); k_destroy_fs := fun d _ => Some (d, RErr 2);
  k_list_fs := fun _ _ _ => Some (ROk []); k_get_prop := fun _ _ _ => Some (RErr 2); k_set_prop := fun d _ _ => Some (d, ROk tt);
  k_mount := fun d _ => Some (d, RErr 2); k_unmount := fun d _ _ => Some (d, RErr 2); k_clean := fun d _ => Some (d, ROk tt);
  k_fault := fun d _ _ => Some (d, RErr 2); k_attach := fun d _ _ _ => Some (d, RErr 2); k_list_pool := fun _ _ _ => Some (ROk []);
  k_status := fun _ _ => Some (RErr 2)
|}.
Definition pv0 (_ : db) (id : Z) (_ : text) (_ : pname) : property * psource := (RecordSize id, SDefault).
Definition state_after (ops : list fop) : db := match fdos toyh db_new ops with Some (d, _) => d | None => db_new end.

(** Two data sets with long names, of a length that can be created, cannot be
    listed: the response is too large for the client. *)
Definition long (x : Z) : text := x :: repeat x 2047.
Definition d_long : db := state_after [OCreate []; OCreate (long 97); OCreate (long 98)].

Theorem C88_large_listing_refuted :
  (exists as_, fdos toyh db_new [OCreate []; OCreate (long 97); OCreate (long 98)] = Some (d_long, as_) /\ as_ = [AId (FOk 0); AId (FOk 1); AId (FOk 2)]) /\
  forall qsize rsize fuel, (forall is, fold_right (fun i s => zlen (di_name i) + s) 0 is <= rsize (PFsList (ROk is))) ->
    qsize (QFsStat [112] []) < BUFSIZ -> qsize (QFsList [112] [] None) < BUFSIZ -> rsize (PFsStat (ROk (mkdi [112] [] 0))) < BUFSIZ ->
    fs_list (forest_controller toyh [112] pv0 nothing) qsize rsize 0 0 (fun _ => (d_long, d_long)) (S fuel) [112] [] None 1
      = Some ([mkdi [112] [] 0], Failed TooLarge).
Proof.
  split; [eexists; split; vm_compute; reflexivity|]. intros qsize rsize fuel RS Q1 Q2 R1. unfold fs_list, ask, call.
  destruct (Z.leb_spec BUFSIZ (qsize (QFsStat [112] []))); [lia|]. cbn [process_rpc get_props obind].
  destruct (Z.leb_spec BUFSIZ (rsize (PFsStat (ROk (mkdi [112] [] 0))))); [lia|]. cbn [obind into_fs_stat].
  cbn [Z.ltb Z.compare children ls_res ls_q ls_offs fill fst snd]. unfold ask, call.
  destruct (Z.leb_spec BUFSIZ (qsize (QFsList [112] [] None))); [lia|]. cbn [process_rpc forest_controller k_list_fs].
  assert (E : ctl_list_fs toyh [112] d_long [112] None = Some (ROk [([112] ++ SLASH :: long 97, 4018); ([112] ++ SLASH :: long 98, 4028)])) by (vm_compute; reflexivity).
  rewrite E. cbn [obind firstn CHUNKQTY with_props get_props].
  set (is := [mkdi ([112] ++ SLASH :: long 97) [] 4018; mkdi ([112] ++ SLASH :: long 98) [] 4028]).
  assert (B : BUFSIZ <= rsize (PFsList (ROk is))).
  { specialize (RS is). assert (X : 4096 <= fold_right (fun i s => zlen (di_name i) + s) 0 is) by (vm_compute; discriminate). unfold BUFSIZ. lia. }
  destruct (Z.leb_spec BUFSIZ (rsize (PFsList (ROk is)))); [|lia]. cbn [obind]. reflexivity.
Qed.

(** A data set that is destroyed before its children are listed makes the whole
    listing fail: those below its sibling are never listed. *)
From Coq Require Import String.
Open Scope string_scope.
Definition ops1 : list fop := [OCreate []; OCreate (str "a"); OCreate (str "b"); OCreate (str "b/c")].
Definition ops2 : list fop := ops1 ++ [ODestroy (str "a")].

Theorem C88_destroyed_meanwhile_refuted :
  (exists as_, fdos toyh db_new ops2 = Some (state_after ops2, as_) /\ as_ = [AId (FOk 0); AId (FOk 1); AId (FOk 2); AId (FOk 3); AUnit (FOk tt)]) /\
  forall fuel, fs_list (forest_controller toyh (str "p") pv0 nothing) (fun _ => 100) (fun _ => 100) 0 0
    (fun n => if (n <=? 2)%nat then (state_after ops1, state_after ops1) else (state_after ops2, state_after ops2)) (3 + fuel) (str "p") [] None 2
    = Some ([mkdi (str "p") [] 0; mkdi (str "p/a") [] 1971; mkdi (str "p/b") [] 1981], Failed (Other 2)).
Proof. split; [eexists; split; vm_compute; reflexivity|]. intros fuel. vm_compute. reflexivity. Qed.

(** With no properties asked for, every name is listed, whether or not there is
    such a data set. *)
Theorem C88_no_such_data_set_refuted {St} (K : controller St) qsize rsize euid uid w fuel name :
  qsize (QFsStat name []) < BUFSIZ -> rsize (PFsStat (ROk (mkdi name [] 0))) < BUFSIZ ->
  fs_list K qsize rsize euid uid w (S fuel) name [] None 0 = Some ([mkdi name [] 0], Finished).
Proof.
  intros Q R. unfold fs_list, ask, call. destruct (Z.leb_spec BUFSIZ (qsize (QFsStat name []))); [lia|]. cbn [process_rpc get_props obind].
  destruct (Z.leb_spec BUFSIZ (rsize (PFsStat (ROk (mkdi name [] 0))))); [lia|]. reflexivity.
Qed.

(** The hypotheses are met by the history of [C25_example]. *)
Example C88_example : exists d ds, reached toyh (fun c => In c names) d ds /\ has ds [] /\
  fits (str "p") (fun _ => 100) (fun _ => 100) [NName; NRecordSize] ds /\
  fs_list (forest_controller toyh (str "p") pv0 nothing) (fun _ => 100) (fun _ => 100) 0 1001 (fun _ => (d, d)) 10 (str "p") [NRecordSize] None (2 ^ 64 - 1)
  = Some ([mkdi (str "p") [(RecordSize 0, SDefault)] 0; mkdi (str "p/a") [(RecordSize 1, SDefault)] 1971;
           mkdi (str "p/b") [(RecordSize 3, SDefault)] 1981; mkdi (str "p/a/b") [(RecordSize 4, SDefault)] 1981], Finished).
Proof.
  assert (SA : sane_run toyh db_new [] ex_ops).
  { unfold ex_ops. cbn [sane_run sane]. split; [intros [i []]|]. intros d a E. vm_compute in E. injection E as <- <-.
    split; [exists 0; vm_compute; auto|]. intros d a E. vm_compute in E. injection E as <- <-. split; [exact Logic.I|].
    intros d a E. vm_compute in E. injection E as <- <-. split; [exists 0; vm_compute; auto|]. intros d a E. vm_compute in E. injection E as <- <-. auto 20. }
  assert (G : Forall (good (fun c => In c names)) ex_ops).
  { unfold ex_ops. repeat (apply Forall_cons; [cbn [good]; repeat (apply Forall_cons; [cbn; tauto|]); constructor|]). constructor. }
  exists (state_after (map op_of ex_ops)). eexists. split; [|split; [|split]].
  - exists ex_ops. eexists. split; [exact G|]. split; [vm_compute; reflexivity|]. split; [exact SA|]. split; [vm_compute; reflexivity|reflexivity].
  - exists 0. vm_compute. auto 10.
  - repeat split; intros; vm_compute; reflexivity.
  - vm_compute. reflexivity.
Qed.

Print Assumptions C88_while_in_use.
Print Assumptions C88_listing_partial.
Print Assumptions C88_large_listing_refuted.
Print Assumptions C88_destroyed_meanwhile_refuted.
Print Assumptions C88_no_such_data_set_refuted.
