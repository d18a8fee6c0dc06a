(** Link counts (C38), files that are open without a name (C39), link (C40), inode numbers (C41), the directory loop check (C48)
    and the effect of every operation on names (C60). *)
From Verif Require Import Common HTable_Model HTable_Props Names_Model Names_Dir Names_Proofs Names_Ops Names_Ops2.
From Coq Require Import Permutation.

(** ** What a user sees: looking up a name, and the kind and link count of an object *)
Section Spec.
Context (hash : name -> Z) (dhash : Z -> Z).
(** Fs::lookup, fs.rs:1469-1512, and Fs::getattr *)
Definition lookup (s : fs) (d : Z) (n : name) : option Z := match dir_get hash (ents s d) n with Ok (_, (i, _)) => Some i | _ => None end.
Definition getattr (s : fs) (i : Z) : option (bool * Z) := match inodes s i with Some v => Some (i_isdir v, i_nlink v) | None => None end.

Definition ordinary (n : name) : Prop := n <> DOT /\ n <> DOTDOT.
Definition directory (s : fs) (d : Z) : Prop := exists k, getattr s d = Some (true, k).
Definition plain (s : fs) (i : Z) : Prop := exists k, getattr s i = Some (false, k).
(** [L] lists the names of [i], and [L] lists the subdirectories of [d] *)
Definition names_of (s : fs) (i : Z) (L : list (Z * name)) : Prop := NoDup L /\ forall d n, In (d, n) L <-> ordinary n /\ lookup s d n = Some i.
Definition subdirs_of (s : fs) (d : Z) (L : list name) : Prop := NoDup L /\ forall n, In n L <-> ordinary n /\ exists i, lookup s d n = Some i /\ directory s i.

(** The requests a kernel sends *)
Definition legal (s : fs) (o : op) : Prop :=
  match o with
  | Create p n | Mkdir p n => directory s p /\ ordinary n /\ lookup s p n = None
  | Link p i n => directory s p /\ ordinary n /\ (exists k, getattr s i = Some (false, k) /\ 0 < k) /\ lookup s p n = None
  | Unlink p n a => directory s p /\ ordinary n /\ forall i, lookup s p n = Some i -> plain s i
  | Rmdir p n => directory s p /\ ordinary n /\ forall i, lookup s p n = Some i -> directory s i
  | Rename p fd n np newino nn => directory s p /\ directory s np /\ ordinary nn /\ lookup s p n = Some fd /\ lookup s np nn = newino /\
      (forall v, newino = Some v -> directory s v <-> directory s fd)
  | Inactive i => True
  | Mount _ => True
  end.
(** what must not happen for the code to work: a new link that collides with another name of the directory, and two files
    that are open without a name and collide *)
Definition lucky (s : fs) (o : op) : Prop :=
  match o with
  | Link p i n => forall m j, lookup s p m = Some j -> hash m <> hash n
  | Unlink p n a => forall i, lookup s p n = Some i -> a = true -> getattr s i = Some (false, 1) -> forall j, getattr s j = Some (false, 0) -> dhash j <> dhash i
  | Inactive i => forall j, getattr s j = Some (false, 0) -> dhash j = dhash i -> j = i
  | _ => True
  end.
Fixpoint run_where (P : fs -> op -> Prop) (s : fs) (l : list op) : Prop :=
  match l with
  | [] => True
  | o :: r => P s o /\ match step hash dhash s o with Some (_, s1) => run_where P s1 r | None => True end
  end.
Definition legal_run (s : fs) (l : list op) : Prop := run_where (fun s o => legal s o /\ lucky s o) s l.

(** What each operation does to names, given its result *)
Definition same (d : Z) (n : name) (d' : Z) (n' : name) : bool := (d =? d') && name_eqb n n'.
Definition expected (s : fs) (o : op) (r : result) (d : Z) (m : name) : option Z :=
  match o, r with
  | _, RErr _ => lookup s d m
  | Create p n, ROk i => if same d m p n then Some i else lookup s d m
  | Mkdir p n, ROk i =>
      if same d m p n then Some i else if d =? i then (if name_eqb m DOT then Some i else if name_eqb m DOTDOT then Some p else None) else lookup s d m
  | Link p i n, ROk _ => if same d m p n then Some i else lookup s d m
  | Unlink p n _, ROk _ => if same d m p n then None else lookup s d m
  | Rmdir p n, ROk i => if (d =? i) || same d m p n then None else lookup s d m
  | Rename p fd n np newino nn, ROk _ =>
      let isdir i := match getattr s i with Some (b, _) => b | None => false end in
      let gone := match newino with Some v => isdir v && negb (same p n np nn) && (d =? v) | None => false end in
      if gone then None
      else if same d m np nn then Some fd
      else if isdir fd && negb (p =? np) && same d m fd DOTDOT then Some np
      else if same d m p n then None else lookup s d m
  | Inactive _, ROk _ | Mount _, ROk _ => lookup s d m
  end.
(** and what result it gives *)
Definition outcome (s : fs) (o : op) (r : result) : Prop :=
  match o, r with
  | Create _ _, ROk i | Mkdir _ _, ROk i => getattr s i = None
  | Link _ i _, ROk j => i = j
  | Unlink p n _, ROk i => lookup s p n = Some i
  | Unlink p n _, RErr e => e = ENOENT /\ lookup s p n = None
  | Rmdir p n, ROk i => lookup s p n = Some i /\ forall m j, lookup s i m = Some j -> m = DOT \/ m = DOTDOT
  | Rmdir p n, RErr e => e = ENOENT /\ lookup s p n = None \/
      e = ENOTEMPTY /\ exists i m j, lookup s p n = Some i /\ ordinary m /\ lookup s i m = Some j
  | Rename p fd n np newino nn, ROk i => i = fd /\ ordinary n /\
      forall v m j, newino = Some v -> directory s v -> lookup s v m = Some j -> m = DOT \/ m = DOTDOT
  | Rename p fd n np newino nn, RErr e => e = EINVAL /\ ~ ordinary n \/
      e = ENOTEMPTY /\ exists v m j, newino = Some v /\ ordinary m /\ lookup s v m = Some j
  | Inactive _, ROk _ | Mount _, ROk _ => True
  | _, RErr _ => False
  end.

(** ** Connection with the invariant *)
Notation N := (N hash).
Notation Inv := (Inv hash dhash).
Lemma lookup_N s d n : lookup s d n = option_map fst (N s d n).
Proof. unfold lookup, Names_Ops.N. destruct (dir_get hash (ents s d) n) as [[n' [i b]]| |]; reflexivity. Qed.
Lemma ordinary_proper n : ordinary n <-> proper n = true.
Proof.
  unfold ordinary, proper. rewrite negb_true_iff, orb_false_iff. split; intros [A B].
  - split; now apply name_eqb_neq.
  - split; intros E; apply name_eqb_spec in E; congruence.
Qed.
Lemma not_ordinary n : ~ ordinary n <-> proper n = false.
Proof. rewrite ordinary_proper. destruct (proper n); split; congruence. Qed.
Lemma directory_isdir s d : directory s d <-> isdir s d.
Proof.
  unfold directory, isdir, getattr. destruct (inodes s d) as [v|]; split.
  - intros (k & E). injection E as E _. eauto.
  - intros (w & E & D). injection E as <-. rewrite D. eauto.
  - intros (k & E). discriminate.
  - intros (w & E & _). discriminate.
Qed.
Lemma plain_kind s i : plain s i <-> kind s i = Some false.
Proof.
  unfold plain, kind, getattr. destruct (inodes s i) as [v|]; cbn; split.
  - intros (k & E). injection E as E _. now rewrite E.
  - intros E. injection E as E. rewrite E. eauto.
  - intros (k & E). discriminate.
  - discriminate.
Qed.
Lemma nameless_dead s i : getattr s i = Some (false, 0) <-> dead s i = true.
Proof.
  rewrite dead_spec. unfold getattr. destruct (inodes s i) as [v|]; split.
  - intros E. injection E as E1 E2. exists v. auto.
  - intros (w & E & D & Nw). injection E as <-. now rewrite D, Nw.
  - discriminate.
  - intros (w & E & _). discriminate.
Qed.
Lemma same_hit d n d' n' : same d n d' n' = hit d' n' d n.
Proof. reflexivity. Qed.
Lemma N_kind s d n i b : Inv s -> N s d n = Some (i, b) -> ordinary n -> kind s i = Some b.
Proof.
  intros [V _] E O. apply ordinary_proper in O. apply N_iff in E; [|exact (iv_wf _ _ _ _ _ V d)]. destruct (iv_tgt _ _ _ _ _ V _ _ _ _ E O) as (v & Ev & Dv). unfold kind. rewrite Ev. cbn. now rewrite Dv.
Qed.
Lemma lookup_some s d n i : lookup s d n = Some i <-> exists b, N s d n = Some (i, b).
Proof. rewrite lookup_N. destruct (N s d n) as [[j b]|]; cbn; split; [intros E; injection E as <-; eauto|intros (c & E); injection E as -> _; reflexivity|discriminate|intros (c & E); discriminate]. Qed.
Lemma lookup_none s d n : lookup s d n = None <-> N s d n = None.
Proof. rewrite lookup_N. destruct (N s d n) as [[j b]|]; cbn; split; congruence. Qed.
Lemma isdir_kind s i : isdir s i <-> kind s i = Some true. Proof. symmetry. apply kind_isdir. Qed.

Lemma NoDup_app_intro {A} (a b : list A) : NoDup a -> NoDup b -> (forall x, In x a -> In x b -> False) -> NoDup (a ++ b).
Proof. clear. induction a as [|x a IH]; intros Na Nb D; [exact Nb|]. inversion Na; subst. cbn [app]. constructor; [|apply IH; auto; intros y Iy; apply D; now right]. rewrite in_app_iff. intros [I|I]; [contradiction|]. apply (D x); [now left|exact I]. Qed.
Lemma names_list s : Inv s -> forall i, exists L, names_of s i L /\ Z.of_nat (length L) = refs s i.
Proof.
  intros [V _] i. pose (f := fun d => map (fun x => (d, fst x)) (filter (points i) (dents (ents s d)))).
  exists (flat_map f (zrange 0 (nexto s))). split; [split|].
  - assert (G : forall l, NoDup l -> NoDup (flat_map f l)).
    { induction l as [|d l IH]; intros ND; [constructor|]. inversion ND; subst. cbn [flat_map]. apply NoDup_app_intro; [|auto|].
      - unfold f. pose proof (dents_nodup hash _ (iv_wf _ _ _ _ _ V d)) as D. clear -D. induction (dents (ents s d)) as [|x r IH]; [constructor|]. cbn [map] in D. inversion D; subst. cbn [filter]. destruct (points i x); [|auto]. cbn [map]. constructor; [|auto]. intros H. apply in_map_iff in H. destruct H as (y & E & I). apply filter_In in I. injection E as E. apply H1. rewrite <- E. now apply in_map.
      - intros x Ix Iy. unfold f in Ix. apply in_map_iff in Ix. destruct Ix as (y & <- & _). apply in_flat_map in Iy. destruct Iy as (d' & Id & Iy). unfold f in Iy. apply in_map_iff in Iy. destruct Iy as (z & E & _). injection E as E _. congruence. }
    apply G, NoDup_zrange.
  - intros d n. rewrite in_flat_map. rewrite lookup_some, ordinary_proper. split.
    + intros (d' & _ & I). unfold f in I. apply in_map_iff in I. destruct I as ([m [j b]] & E & I). injection E as -> <-. apply filter_In in I. destruct I as [I P]. unfold points in P. cbn [fst snd] in P. apply andb_true_iff in P. destruct P as [P1 P2]. apply Z.eqb_eq in P2. subst j. cbn [fst]. split; [exact P1|]. exists b. apply N_iff; [exact (iv_wf _ _ _ _ _ V d)|exact I].
    + intros (P & b & E). apply N_iff in E; [|exact (iv_wf _ _ _ _ _ V d)]. exists d. split; [apply in_zrange; pose proof (isdir_rng _ _ _ _ _ _ V (ents_isdir _ _ _ _ _ _ _ V E)); lia|]. unfold f. apply in_map_iff. exists (n, (i, b)). split; [reflexivity|]. apply filter_In. split; [exact E|]. unfold points. cbn [fst snd]. now rewrite P, Z.eqb_refl.
  - unfold refs. induction (zrange 0 (nexto s)) as [|d l IH]; [reflexivity|]. cbn [flat_map zsum]. rewrite app_length, Nat2Z.inj_add, IH. f_equal. unfold f. rewrite map_length. reflexivity.
Qed.
Lemma subdirs_list s : Inv s -> forall d, exists L, subdirs_of s d L /\ Z.of_nat (length L) = subdirs s d.
Proof.
  intros I d. destruct (I) as [V _]. pose proof (iv_wf _ _ _ _ _ V d) as W. exists (map fst (filter isub (dents (ents s d)))). split; [split|].
  - pose proof (dents_nodup hash _ W) as D. clear -D. induction (dents (ents s d)) as [|x r IH]; [constructor|]. cbn [map] in D. inversion D; subst. cbn [filter]. destruct (isub x); [|auto]. cbn [map]. constructor; [|auto]. intros H. apply in_map_iff in H. destruct H as (y & E & J). apply filter_In in J. apply H1. rewrite <- E. now apply in_map.
  - intros n. rewrite in_map_iff, ordinary_proper. split.
    + intros ([m [j b]] & E & J). cbn [fst] in E. subst m. apply filter_In in J. destruct J as [J P]. unfold isub in P. cbn [fst snd] in P. apply andb_true_iff in P. destruct P as [P1 ->]. split; [exact P1|]. exists j. apply (N_iff hash) in J; [|exact W]. split; [apply lookup_some; eauto|]. apply directory_isdir, isdir_kind. apply (N_kind s d n j true I J). now apply ordinary_proper.
    + intros (P & j & E & D). apply lookup_some in E. destruct E as (b & E). pose proof (N_kind s d n j b I E ltac:(now apply ordinary_proper)) as K. apply directory_isdir, isdir_kind in D. assert (b = true) by congruence. subst b. apply N_iff in E; [|exact W]. exists (n, (j, true)). split; [reflexivity|]. apply filter_In. split; [exact E|]. unfold isub. cbn [fst snd]. now rewrite P.
  - rewrite map_length. reflexivity.
Qed.

(** every legal operation is carried out, keeps the invariant, and does what is expected *)
Record Did (s : fs) (o : op) (r : result) (s' : fs) : Prop := {
  did_inv : Inv s';
  did_names : forall d m, lookup s' d m = expected s o r d m;
  did_out : hash DOT <> hash DOTDOT -> outcome s o r;
  did_next : match o with Create _ _ | Mkdir _ _ => r = ROk (nexto s) /\ nexto s' = nexto s + 1 | Mount _ => nexto s' <= nexto s | _ => nexto s' = nexto s end;
  did_kind : forall j, kind s' j =
     match o, r with
     | _, RErr _ => kind s j
     | Create _ _, ROk i => if j =? i then Some false else kind s j
     | Mkdir _ _, ROk i => if j =? i then Some true else kind s j
     | Unlink p n a, ROk i => if (j =? i) && ((refs s i =? 1) && negb a) then None else kind s j
     | Rmdir _ _, ROk i => if j =? i then None else kind s j
     | Rename p fd n np newino nn, ROk _ =>
         match replaced hash s p n np nn with Some (v, b') => if (j =? v) && (b' || (refs s v =? 1)) then None else kind s j | None => kind s j end
     | Inactive i, ROk _ => if (j =? i) && dead s i then None else kind s j
     | Mount _, ROk _ => if dead s j then None else kind s j
     | _, ROk _ => kind s j
     end }.

Lemma expected_err s o e d m : expected s o (RErr e) d m = lookup s d m. Proof. destruct o; reflexivity. Qed.
Lemma lookup_same s s' d m : N s' d m = N s d m -> lookup s' d m = lookup s d m.
Proof. intros E. rewrite !lookup_N. now rewrite E. Qed.
Lemma not_empty s v : hash DOT <> hash DOTDOT -> ~ empty_dir hash s v -> Inv s -> exists m j, ordinary m /\ lookup s v m = Some j.
Proof.
  intros Hh H [V _]. pose proof (iv_wf _ _ _ _ _ V v) as W. destruct (existsb (fun x => proper (fst x)) (dents (ents s v))) eqn:E.
  - apply existsb_exists in E. destruct E as ([m [j b]] & I & P). cbn [fst] in P. exists m, j. split; [now apply ordinary_proper|]. apply lookup_some. exists b. now apply N_iff.
  - exfalso. apply H. intros m e En. apply (N_iff hash) in En; [|exact W]. apply not_true_iff_false. intros P. assert (X : existsb (fun x => proper (fst x)) (dents (ents s v)) = true) by (apply existsb_exists; exists (m, e); auto). congruence.
Qed.

Lemma legal_step s o : Inv s -> legal s o -> lucky s o -> exists r s', step hash dhash s o = Some (r, s') /\ Did s o r s'.
Proof.
  intros I L K0. destruct o as [p n|p n|p i n|p n a|p n|p fd n np newino nn|i|e]; cbn [step legal lucky] in *.
  - destruct L as (Dp & O & E). apply directory_isdir in Dp. apply ordinary_proper in O. apply lookup_none in E. destruct (create_ok hash dhash s p n I Dp O E) as (s' & Es & I' & Nx & K & HN). do 2 eexists. split; [exact Es|]. constructor; auto.
    + intros d m. rewrite lookup_N, HN. cbn [andb]. unfold expected. rewrite same_hit. destruct (hit p n d m); [reflexivity|]. symmetry. apply lookup_N.
    + intros _. cbn [outcome]. unfold getattr. now rewrite (fresh_none _ _ _ _ _ (proj1 I)).
  - destruct L as (Dp & O & E). apply directory_isdir in Dp. apply ordinary_proper in O. apply lookup_none in E. destruct (mkdir_ok hash dhash s p n I Dp O E) as (s' & Es & I' & Nx & K & HN). do 2 eexists. split; [exact Es|]. constructor; auto.
    + intros d m. rewrite lookup_N, HN. cbn [andb]. unfold expected. rewrite same_hit. destruct (hit p n d m); [reflexivity|]. unfold hit. destruct (Z.eqb_spec d (nexto s)) as [->|]; cbn [andb]; [|symmetry; apply lookup_N]. destruct (name_eqb m DOT); [reflexivity|]. destruct (name_eqb m DOTDOT); [reflexivity|].
      assert (X : N s (nexto s) m = None); [|now rewrite X]. apply N_none; [exact (iv_wf _ _ _ _ _ (proj1 I) _)|]. rewrite (iv_empty _ _ _ _ _ (proj1 I) (nexto s)); [auto|]. intros v Ev. rewrite (fresh_none _ _ _ _ _ (proj1 I)) in Ev. discriminate.
    + intros _. cbn [outcome]. unfold getattr. now rewrite (fresh_none _ _ _ _ _ (proj1 I)).
  - destruct L as (Dp & O & (k & G & Hk) & _). rename K0 into NC. apply directory_isdir in Dp. apply ordinary_proper in O. assert (K : kind s i = Some false) by (apply plain_kind; exists k; exact G).
    assert (R1 : 1 <= refs s i). { destruct (kind_some _ _ _ K) as (v & Ev & Dv). unfold getattr in G. rewrite Ev in G. injection G as _ G. pose proof (iv_file _ _ _ _ _ (proj1 I) i v Ev Dv) as F. cbn beta in F. lia. }
    destruct (link_ok hash dhash s p i n I Dp O K R1) as (s' & Es & I' & Nx & Kd & HN). { intros m [j b] E. apply (NC m j). apply lookup_some. eauto. }
    do 2 eexists. split; [exact Es|]. constructor; auto.
    + intros d m. rewrite lookup_N, HN. unfold expected. rewrite same_hit. destruct (hit p n d m); [reflexivity|]. symmetry. apply lookup_N.
    + intros _. reflexivity.
  - destruct L as (Dp & O & H). apply directory_isdir in Dp. apply ordinary_proper in O. destruct (N s p n) as [[i b]|] eqn:E.
    + assert (El : lookup s p n = Some i) by (apply lookup_some; eauto). destruct (H i El) as (k & G). pose proof (K0 i El) as Hc. pose proof (N_kind s p n i b I E ltac:(now apply ordinary_proper)) as K. assert (Kf : kind s i = Some false) by (apply plain_kind; exists k; exact G). assert (b = false) by congruence. subst b.
      destruct (unlink_ok hash dhash s p n a i I Dp O E) as (s' & Es & I' & Nx & HN & Kd).
      { intros -> R1. destruct (dying s (dhash i)) as [j|] eqn:Ed; [|reflexivity]. exfalso. destruct (dying_dead dhash s _ j (proj2 I) Ed) as [Dj Hj]. apply (Hc eq_refl) with (j := j); [|now apply nameless_dead|exact Hj]. destruct (kind_some _ _ _ Kf) as (v & Ev & Dv). unfold getattr. rewrite Ev, Dv. pose proof (iv_file _ _ _ _ _ (proj1 I) i v Ev Dv) as F. cbn beta in F. do 2 f_equal. lia. }
      do 2 eexists. split; [exact Es|]. constructor; auto.
      * intros d m. rewrite lookup_N, HN. unfold expected. rewrite same_hit. destruct (hit p n d m); [reflexivity|]. symmetry. apply lookup_N.
    + destruct (unlink_enoent hash dhash s p n a I Dp E) as (s' & Es & I' & Nx & HN & Kd). do 2 eexists. split; [exact Es|]. constructor; auto.
      * intros d m. apply lookup_same, HN.
      * intros _. split; [reflexivity|]. now apply lookup_none.
  - destruct L as (Dp & O & H). apply directory_isdir in Dp. apply ordinary_proper in O. destruct (N s p n) as [[i b]|] eqn:E.
    + assert (El : lookup s p n = Some i) by (apply lookup_some; eauto). pose proof (H i El) as D. apply directory_isdir, isdir_kind in D. pose proof (N_kind s p n i b I E ltac:(now apply ordinary_proper)) as K. assert (b = true) by congruence. subst b.
      destruct (rmdir_ok hash dhash s p n i I Dp O E) as [(s' & Es & Em & I' & Nx & HN & Kd)|(Es & Ne)]; do 2 eexists; (split; [exact Es|]); constructor; auto.
      * intros d m. rewrite lookup_N, HN. unfold expected. rewrite same_hit. destruct (d =? i); [reflexivity|]. cbn [orb]. destruct (hit p n d m); [reflexivity|]. symmetry. apply lookup_N.
      * intros _. split; [exact El|]. intros m j Em'. apply lookup_some in Em'. destruct Em' as (b & Em'). specialize (Em m _ Em'). unfold proper in Em. apply negb_false_iff, orb_true_iff in Em. now rewrite !name_eqb_spec in Em.
      * intros Hh. right. split; [reflexivity|]. destruct (not_empty s i Hh (Ne Hh) I) as (m & j & A & B). exists i, m, j. auto.
    + rewrite (rmdir_enoent hash dhash s p n I E). do 2 eexists. split; [reflexivity|]. constructor; auto. intros _. left. split; [reflexivity|]. now apply lookup_none.
  - destruct L as (Dp & Dnp & O & El & Ed & Hk). apply directory_isdir in Dp, Dnp. destruct (proper n) eqn:Pn.
    2:{ rewrite (rename_dots hash dhash s p fd n np newino nn Pn). do 2 eexists. split; [reflexivity|]. constructor; auto. intros _. left. split; [reflexivity|]. now apply not_ordinary. }
    apply lookup_some in El. destruct El as (b & E). pose proof (N_kind s p n fd b I E ltac:(now apply ordinary_proper)) as Kf.
    assert (Hd : dest_ok hash s np nn newino b).
    { unfold dest_ok. destruct newino as [v|]; [|now apply lookup_none]. apply lookup_some in Ed. destruct Ed as (c & Ed). pose proof (N_kind s np nn v c I Ed O) as Kv. specialize (Hk v eq_refl). rewrite !directory_isdir, !isdir_kind, Kv, Kf in Hk. rewrite Ed. do 2 f_equal. destruct b, c; try reflexivity; destruct Hk as [A B]; [discriminate (B eq_refl)|discriminate (A eq_refl)]. }
    apply ordinary_proper in O. destruct (rename_ok hash dhash s p fd n np newino nn b I Dp Dnp Pn O E Hd) as [(s' & Es & I' & (Nx & Kd & HN) & Em)|(Es & Ne)].
    + do 2 eexists. split; [exact Es|]. constructor; auto.
      2:{ intros _. split; [reflexivity|]. split; [now apply ordinary_proper|]. intros v m j Ev D El. apply directory_isdir, isdir_kind in D. unfold dest_ok in Hd. rewrite Ev in Hd. pose proof (N_kind s np nn v b I Hd ltac:(now apply ordinary_proper)) as Kv. assert (b = true) by congruence. apply lookup_some in El. destruct El as (c & El). specialize (Em v Ev H m _ El). unfold proper in Em. apply negb_false_iff, orb_true_iff in Em. now rewrite !name_eqb_spec in Em. }
      intros d m. rewrite lookup_N, HN. unfold expected. rewrite !same_hit.
      assert (Fb : (match getattr s fd with Some (c, _) => c | None => false end) = b) by (destruct (kind_some _ _ _ Kf) as (w & Ew & Dw); unfold getattr; rewrite Ew; exact Dw). rewrite Fb. cbn zeta.
      assert (Gb : (match newino with Some v => (match getattr s v with Some (c, _) => c | None => false end) && negb (hit np nn p n) && (d =? v) | None => false end) = match replaced hash s p n np nn with Some (v, b') => b' && (d =? v) | None => false end).
      { assert (Hs : hit np nn p n = hit p n np nn). { destruct (hit_spec np nn p n) as [[A1 B1]|X]; destruct (hit_spec p n np nn) as [[A2 B2]|Y]; try reflexivity; exfalso; [apply Y|apply X]; auto. } rewrite Hs. unfold replaced, dest_ok in *. destruct newino as [v|]; rewrite Hd.
        - assert (Kv : kind s v = Some b) by (apply (N_kind s np nn v b I Hd); now apply ordinary_proper). destruct (kind_some _ _ _ Kv) as (w & Ew & Dw). unfold getattr. rewrite Ew, Dw. destruct (hit p n np nn); cbn [negb]; [rewrite andb_false_r; reflexivity|]. now rewrite andb_true_r.
        - destruct (hit p n np nn); reflexivity. }
      rewrite Gb. destruct (match replaced hash s p n np nn with Some (v, b') => b' && (d =? v) | None => false end); [reflexivity|]. destruct (hit np nn d m); [reflexivity|]. destruct (b && negb (p =? np) && hit fd DOTDOT d m); [reflexivity|]. destruct (hit p n d m); [reflexivity|]. symmetry. apply lookup_N.
    + do 2 eexists. split; [exact Es|]. constructor; auto. intros Hh. right. split; [reflexivity|]. destruct (Ne Hh) as (v & Ev & _ & X). destruct (not_empty s v Hh X I) as (m & j & A & B). exists v, m, j. auto.
  - destruct (inactive_ok hash dhash s i I) as (s' & Es & I' & Nx & Kd & HN). { intros j Dj Hj. apply (K0 j); [now apply nameless_dead|exact Hj]. } do 2 eexists. split; [exact Es|]. constructor; try solve [auto|intros d m; apply lookup_same, HN|intros _; exact Logic.I].
  - destruct (mount_ok hash dhash s e I) as (I' & Nx & HN & Kd & Dd). do 2 eexists. split; [reflexivity|]. constructor; try solve [auto|intros d m; apply lookup_same, HN|intros _; exact Logic.I].
Qed.

Lemma new_fs_inv : hash DOT <> hash DOTDOT -> Inv (new_fs hash).
Proof.
  intros Hh. assert (Ds : dents (ents (new_fs hash) 1) = [(DOTDOT, (1, true)); (DOT, (1, true))]).
  { unfold new_fs. cbn. destruct (Z.eqb_spec (hash DOT) (hash DOTDOT)); [contradiction|]. reflexivity. }
  assert (Oth : forall d, d <> 1 -> ents (new_fs hash) d = []) by (intros d Hd; unfold new_fs; cbn; unfold upd; destruct (Z.eqb_spec d 1); [contradiction|reflexivity]).
  assert (Io : forall i v, inodes (new_fs hash) i = Some v -> i = 1 /\ v = Inode true 1) by (intros i v; unfold new_fs; cbn; unfold upd; destruct (Z.eqb_spec i 1); [intros E; injection E as <-; auto|discriminate]).
  assert (I1 : inodes (new_fs hash) 1 = Some (Inode true 1)) by reflexivity.
  assert (Pd : forall d n e, In (n, e) (dents (ents (new_fs hash) d)) -> proper n = false). { intros d n e I. destruct (Z.eq_dec d 1) as [->|Hd]; [rewrite Ds in I; destruct I as [I|[I|[]]]; injection I as <- _; reflexivity|rewrite Oth in I by exact Hd; contradiction]. }
  assert (R0 : forall i, refs (new_fs hash) i = 0). { intros i. apply zsum_0. intros d _. apply count_all_false. intros [n e] I. unfold points. cbn [fst]. now rewrite (Pd d n e I). }
  split; [constructor|split].
  - cbn. lia.
  - exists (Inode true 1). auto.
  - intros i v E. apply Io in E. destruct E as [-> _]. cbn. lia.
  - intros d. destruct (Z.eq_dec d 1) as [->|Hd]; [|rewrite Oth by exact Hd; split; constructor]. unfold new_fs. cbn. destruct (Z.eqb_spec (hash DOT) (hash DOTDOT)); [contradiction|]. split; cbn.
    + constructor; [intros [E|[]]; congruence|constructor; [intros []|constructor]].
    + repeat constructor; cbn; auto.
  - intros d H. apply Oth. intros ->. specialize (H _ I1). discriminate.
  - intros d v E _ _. apply Io in E. destruct E as [-> _]. rewrite Ds. split; [cbn; auto|exists 1; cbn; auto].
  - intros d n i b I P. rewrite (Pd d n _ I) in P. discriminate.
  - intros i v E D. apply Io in E. destruct E as [_ ->]. discriminate.
  - intros i v E _. apply Io in E. destruct E as [-> ->]. rewrite R0. unfold subdirs, sub. rewrite Ds. split; reflexivity.
  - intros p n i I P. rewrite (Pd p n _ I) in P. discriminate.
  - intros h i E. discriminate.
  - intros i v E D. apply Io in E. destruct E as [_ ->]. discriminate.
Qed.

Lemma run_inv l : forall s, Inv s -> legal_run s l -> exists rs s', run hash dhash s l = Some (rs, s') /\ Inv s'.
Proof.
  induction l as [|o l IH]; intros s I L; cbn [run]; [eauto|]. destruct L as [[L1 L1'] L2]. destruct (legal_step s o I L1 L1') as (r & s1 & E & D). rewrite E in *. destruct (IH s1 (did_inv _ _ _ _ D) L2) as (rs & s2 & -> & I2). eauto.
Qed.

(** ** C38 *)
Lemma counts s : Inv s ->
  (forall i k, getattr s i = Some (false, k) -> exists L, names_of s i L /\ k = Z.of_nat (length L)) /\
  (forall i k, getattr s i = Some (true, k) -> i <> 1 -> lookup s i DOT = Some i /\ (exists p n, names_of s i [(p, n)] /\ lookup s i DOTDOT = Some p) /\ exists L, subdirs_of s i L /\ k = 2 + Z.of_nat (length L)) /\
  (exists k L, getattr s 1 = Some (true, k) /\ names_of s 1 [] /\ subdirs_of s 1 L /\ k = 1 + Z.of_nat (length L)) /\
  (forall d n i, lookup s d n = Some i -> ordinary n -> getattr s i <> None).
Proof.
  intros I. destruct (I) as [V Dy]. split; [|split; [|split]].
  - intros i k G. destruct (names_list s I i) as (L & HL & Len). exists L. split; [exact HL|]. unfold getattr in G. destruct (inodes s i) as [v|] eqn:Ev; [|discriminate]. injection G as Dv <-. pose proof (iv_file _ _ _ _ _ V i v Ev Dv) as F. cbn beta in F. lia.
  - intros i k G Hi. unfold getattr in G. destruct (inodes s i) as [v|] eqn:Ev; [|discriminate]. injection G as Dv <-. destruct (iv_dir _ _ _ _ _ V i v Ev Dv) as [Rf Nl]. destruct (Z.eqb_spec i 1) as [|_]; [contradiction|]. destruct (iv_dot _ _ _ _ _ V i v Ev Dv ltac:(tauto)) as [A _]. pose proof (iv_wf _ _ _ _ _ V i) as W. split; [apply lookup_some; exists true; now apply N_iff|]. split.
    + destruct (names_list s I i) as (L & HL & Len). destruct L as [|[p n] [|x L]]; cbn [length] in Len; [lia| |lia]. exists p, n. split; [exact HL|]. destruct HL as [_ HL]. destruct (proj1 (HL p n) (or_introl eq_refl)) as [O E]. apply lookup_some in E. destruct E as (b & E). pose proof (N_kind s p n i b I E O) as K. unfold kind in K. rewrite Ev in K. cbn in K. assert (b = true) by congruence. subst b. apply N_iff in E; [|exact (iv_wf _ _ _ _ _ V p)]. apply lookup_some. exists true. apply N_iff; [exact W|]. apply (iv_par _ _ _ _ _ V p n i E); [now apply ordinary_proper|tauto].
    + destruct (subdirs_list s I i) as (L & HL & Len). exists L. split; [exact HL|]. lia.
  - destruct (iv_root _ _ _ _ _ V) as (v & Ev & Dv). destruct (iv_dir _ _ _ _ _ V 1 v Ev Dv) as [Rf Nl]. cbn [Z.eqb Pos.eqb] in Rf, Nl. destruct (subdirs_list s I 1) as (L & HL & Len). destruct (names_list s I 1) as (L0 & HL0 & Len0). destruct L0; [|cbn [length] in Len0; lia]. exists (i_nlink v), L. unfold getattr. rewrite Ev, Dv. split; [reflexivity|]. split; [exact HL0|]. split; [exact HL|]. lia.
  - intros d n i E O G. apply lookup_some in E. destruct E as (b & E). pose proof (N_kind s d n i b I E O) as K. unfold getattr in G. unfold kind in K. destruct (inodes s i); discriminate.
Qed.

(** a name that a lookup finds is stored *)
Lemma lookup_in s d n i : lookup s d n = Some i -> exists m b, In (m, (i, b)) (dents (ents s d)).
Proof.
  unfold lookup, dir_get, ht_get. assert (G : forall l k c, dget l k = Some c -> forall x, In x (cell_items c) -> In x (dents l)).
  { induction l as [|[k' c'] l IH]; intros k c E x Ix; [discriminate|]. cbn [dget] in E. unfold dents. cbn [flat_map snd]. apply in_or_app. destruct (k' =? k); [injection E as <-; now left|right; exact (IH k c E x Ix)]. }
  destruct (dget (ents s d) (hash n)) as [c|] eqn:E; [|discriminate]. pose proof (G _ _ _ E) as H. destruct c as [[m [j b]]|l|]; [| |discriminate].
  - match goal with |- context [if ?x then _ else _] => destruct x end; [|discriminate]. intros X. injection X as <-. exists m, b. apply H. now left.
  - match goal with |- context [if ?x then _ else _] => destruct x end; [discriminate|]. destruct (List.find _ l) as [[m [j b]]|] eqn:F; [|discriminate]. intros X. injection X as <-. apply find_some in F. exists m, b. apply H. exact (proj1 F).
Qed.
End Spec.
