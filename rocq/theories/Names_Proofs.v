(** Invariants of the name space. *)
From Verif Require Import Common HTable_Model HTable_Props Names_Model Names_Dir.
From Coq Require Import Permutation.

Definition proper (n : name) : bool := negb (name_eqb n DOT || name_eqb n DOTDOT).
Definition points (i : Z) (x : name * ent) : bool := proper (fst x) && (fst (snd x) =? i).
Definition isub (x : name * ent) : bool := proper (fst x) && snd (snd x).
Definition cnt (i : Z) (l : list (name * ent)) : Z := count (points i) l.
Definition sub (l : list (name * ent)) : Z := count isub l.

Lemma count_perm {A} (p : A -> bool) a b : Permutation a b -> count p a = count p b.
Proof. intros P. induction P; rewrite ?count_cons; try lia; reflexivity. Qed.
Lemma proper_dot : proper DOT = false. Proof. reflexivity. Qed.
Lemma proper_dotdot : proper DOTDOT = false. Proof. reflexivity. Qed.

Fixpoint zsum (f : Z -> Z) (l : list Z) : Z := match l with [] => 0 | x :: r => f x + zsum f r end.
Lemma zsum_ext f g l : (forall x, In x l -> f x = g x) -> zsum f l = zsum g l.
Proof. induction l as [|x l IH]; intros H; [reflexivity|]. cbn [zsum]. rewrite (H x (or_introl eq_refl)), IH; [reflexivity|]. intros y Iy. apply H. now right. Qed.
Lemma zsum_upd f d a l : NoDup l -> In d l -> zsum (fun x => if x =? d then a else f x) l = zsum f l - f d + a.
Proof.
  induction l as [|x l IH]; intros N I; [contradiction|]. inversion N; subst. cbn [zsum]. destruct I as [->|I].
  - rewrite Z.eqb_refl. rewrite (zsum_ext _ f); [lia|]. intros y Iy. destruct (Z.eqb_spec y d); [subst; contradiction|reflexivity].
  - rewrite IH by assumption. destruct (Z.eqb_spec x d); [subst; contradiction|lia].
Qed.
Lemma zsum_app f a b : zsum f (a ++ b) = zsum f a + zsum f b.
Proof. induction a as [|x a IH]; [reflexivity|]. cbn [app zsum]. rewrite IH. lia. Qed.
Lemma zsum_0 f l : (forall x, In x l -> f x = 0) -> zsum f l = 0.
Proof. induction l as [|x l IH]; intros H; [reflexivity|]. cbn [zsum]. rewrite (H x (or_introl eq_refl)), IH; [reflexivity|]. intros y Iy. apply H. now right. Qed.
Lemma zsum_ge f l d : (forall x, 0 <= f x) -> In d l -> f d <= zsum f l.
Proof.
  intros P. assert (Nn : forall m, 0 <= zsum f m) by (induction m as [|x m IHm]; cbn [zsum]; [lia|specialize (P x); lia]).
  induction l as [|x l IH]; intros I; [contradiction|]. cbn [zsum]. destruct I as [->|I]; [specialize (Nn l); lia|]. specialize (IH I). specialize (P x). lia.
Qed.

(** how many entries name [i], and how many subdirectories [d] has *)
Definition refs (s : fs) (i : Z) : Z := zsum (fun d => cnt i (dents (ents s d))) (zrange 0 (nexto s)).
Definition subdirs (s : fs) (d : Z) : Z := sub (dents (ents s d)).

Lemma cnt_nonneg i l : 0 <= cnt i l. Proof. apply count_nonneg. Qed.
Lemma refs_set_ents s d l i : 0 <= d < nexto s -> refs (set_ents s d l) i = refs s i - cnt i (dents (ents s d)) + cnt i (dents l).
Proof.
  intros H. unfold refs. cbn [nexto set_ents ents]. rewrite <- (zsum_upd (fun d => cnt i (dents (ents s d)))); [|apply NoDup_zrange|now apply in_zrange].
  apply zsum_ext. intros x _. unfold upd. destruct (x =? d); reflexivity.
Qed.
Lemma refs_set_inode s d v i : refs (set_inode s d v) i = refs s i. Proof. reflexivity. Qed.
Lemma refs_set_dying s h v i : refs (set_dying s h v) i = refs s i. Proof. reflexivity. Qed.
Lemma refs_range (s : fs) n1 n2 i : 0 <= n1 <= n2 -> (forall d, n1 <= d < n2 -> ents s d = []) ->
  zsum (fun d => cnt i (dents (ents s d))) (zrange 0 n2) = zsum (fun d => cnt i (dents (ents s d))) (zrange 0 n1).
Proof.
  intros H E. rewrite (zrange_split 0 n1 n2) by lia. rewrite zsum_app. rewrite (zsum_0 _ (zrange n1 n2)); [lia|]. intros d I. apply in_zrange in I. rewrite E by lia. reflexivity.
Qed.
Lemma refs_pos s d n i b : 0 <= d < nexto s -> In (n, (i, b)) (dents (ents s d)) -> proper n = true -> 1 <= refs s i.
Proof.
  intros H I P. assert (G : cnt i (dents (ents s d)) <= refs s i). { unfold refs. apply (zsum_ge (fun d => cnt i (dents (ents s d)))); [intros; apply cnt_nonneg|now apply in_zrange]. }
  apply in_split in I. destruct I as (a & c & E). rewrite E in G. unfold cnt in G. rewrite count_app, count_cons in G. unfold points at 2 in G. cbn [fst snd] in G. rewrite P, Z.eqb_refl in G. cbn [andb] in G. pose proof (count_nonneg (points i) a). pose proof (count_nonneg (points i) c). lia.
Qed.
Lemma refs_inv s i : 1 <= refs s i -> exists d n b, In (n, (i, b)) (dents (ents s d)) /\ proper n = true.
Proof.
  intros H. destruct (existsb (fun d => existsb (points i) (dents (ents s d))) (zrange 0 (nexto s))) eqn:E.
  - apply existsb_exists in E. destruct E as (d & _ & E). apply existsb_exists in E. destruct E as ([n [j b]] & I & P). unfold points in P. cbn [fst snd] in P. apply andb_true_iff in P. destruct P as [P1 P2]. apply Z.eqb_eq in P2. subst. eauto.
  - exfalso. assert (R0 : refs s i = 0); [|lia]. unfold refs. apply zsum_0. intros d Id. unfold cnt. apply count_all_false. intros x Ix. destruct (points i x) eqn:Px; [|reflexivity]. exfalso.
    assert (X : existsb (fun d => existsb (points i) (dents (ents s d))) (zrange 0 (nexto s)) = true). { apply existsb_exists. exists d. split; [exact Id|]. apply existsb_exists. eauto. } congruence.
Qed.
Lemma refs_nonneg s i : 0 <= refs s i.
Proof. unfold refs. induction (zrange 0 (nexto s)) as [|x l IH]; cbn [zsum]; [lia|]. pose proof (cnt_nonneg i (dents (ents s x))). lia. Qed.

Section Inv.
Context (hash : name -> Z).

Record InvD (s : fs) (dl rh : Z -> Z) (ex : Z -> Prop) : Prop := {
  iv_next : 2 <= nexto s;
  iv_root : exists v, inodes s 1 = Some v /\ i_isdir v = true;
  iv_rng : forall i v, inodes s i = Some v -> 1 <= i < nexto s;
  iv_wf : forall d, WFd hash (ents s d);
  iv_empty : forall d, (forall v, inodes s d = Some v -> i_isdir v = false) -> ents s d = [];
  iv_dot : forall d v, inodes s d = Some v -> i_isdir v = true -> ~ ex d -> In (DOT, (d, true)) (dents (ents s d)) /\ exists p, In (DOTDOT, (p, true)) (dents (ents s d));
  iv_tgt : forall d n i b, In (n, (i, b)) (dents (ents s d)) -> proper n = true -> exists v, inodes s i = Some v /\ i_isdir v = b;
  iv_file : forall i v, inodes s i = Some v -> i_isdir v = false -> i_nlink v = refs s i + dl i;
  iv_dir : forall i v, inodes s i = Some v -> i_isdir v = true ->
             refs s i = (if i =? 1 then 0 else 1) + rh i /\ i_nlink v = (if i =? 1 then 1 else 2) + subdirs s i + dl i;
  iv_par : forall p n i, In (n, (i, true)) (dents (ents s p)) -> proper n = true -> ~ ex i -> In (DOTDOT, (p, true)) (dents (ents s i)) }.

Definition isdir (s : fs) (d : Z) : Prop := exists v, inodes s d = Some v /\ i_isdir v = true.

Lemma ents_isdir s dl rh ex d x : InvD s dl rh ex -> In x (dents (ents s d)) -> isdir s d.
Proof.
  intros V I. destruct (inodes s d) as [v|] eqn:E; [destruct (i_isdir v) eqn:Ed; [exists v; auto|]|]; exfalso.
  - rewrite (iv_empty _ _ _ _ V d) in I; [exact I|]. intros w Ew. congruence.
  - rewrite (iv_empty _ _ _ _ V d) in I; [exact I|]. intros w Ew. congruence.
Qed.
Lemma isdir_rng s dl rh ex d : InvD s dl rh ex -> isdir s d -> 1 <= d < nexto s.
Proof. intros V (v & E & _). exact (iv_rng _ _ _ _ V d v E). Qed.
Lemma InvD_ext s dl rh ex dl' rh' (ex' : Z -> Prop) : InvD s dl rh ex -> (forall i v, inodes s i = Some v -> dl i = dl' i /\ (i_isdir v = true -> rh i = rh' i)) -> (forall i, ex i -> ex' i) -> InvD s dl' rh' ex'.
Proof.
  intros V H E. destruct V. constructor; auto.
  - intros d v Ev Dv NE. apply (iv_dot0 d v Ev Dv). intros X. apply NE. auto.
  - intros i v Ev D. rewrite (iv_file0 i v Ev D). f_equal. now apply (H i v).
  - intros i v Ev D. destruct (iv_dir0 i v Ev D) as [A B]. destruct (H i v Ev) as [H1 H2]. rewrite <- H1, <- H2 by exact D. auto.
  - intros p n i I P NE. apply (iv_par0 p n i I P). auto.
Qed.

Notation d1 b x := (if b : bool then x else 0).

(** an entry disappears *)
Lemma inv_remove s dl rh ex p n i b l' : InvD s dl rh ex -> WFd hash l' -> Permutation (dents (ents s p)) ((n, (i, b)) :: dents l') -> proper n = true ->
  InvD (set_ents s p l') (fun j => dl j + (if b then d1 (j =? p) 1 else d1 (j =? i) 1)) (fun j => rh j - (if b then d1 (j =? i) 1 else 0)) ex.
Proof.
  intros V W P Pr. assert (Ip : In (n, (i, b)) (dents (ents s p))) by (rewrite P; now left). pose proof (ents_isdir _ _ _ _ _ _ V Ip) as Dp. pose proof (isdir_rng _ _ _ _ _ V Dp) as Rp. destruct (iv_tgt _ _ _ _ V p n i b Ip Pr) as (vi & Ei & Di).
  assert (Sub : forall d x, In x (dents (ents (set_ents s p l') d)) -> In x (dents (ents s d))).
  { intros d x. cbn [ents set_ents]. unfold upd. destruct (Z.eqb_spec d p) as [->|]; [|auto]. intros I. rewrite P. now right. }
  assert (SubDot : forall d m e, In (m, e) (dents (ents s d)) -> proper m = false -> In (m, e) (dents (ents (set_ents s p l') d))).
  { intros d m e I Pm. cbn [ents set_ents]. unfold upd. destruct (Z.eqb_spec d p) as [->|]; [|auto]. rewrite P in I. destruct I as [I|I]; [injection I as <- _; congruence|exact I]. }
  assert (Rf : forall j, refs (set_ents s p l') j = refs s j - d1 (i =? j) 1).
  { intros j. rewrite refs_set_ents by lia. unfold cnt. rewrite (count_perm _ _ _ P), count_cons. unfold points at 1. cbn [fst snd]. rewrite Pr. cbn [andb]. lia. }
  assert (Sd : forall j, subdirs (set_ents s p l') j = subdirs s j - d1 (j =? p) (d1 b 1)).
  { intros j. unfold subdirs. cbn [ents set_ents]. unfold upd. destruct (Z.eqb_spec j p) as [->|]; [|lia]. unfold sub. rewrite (count_perm _ _ _ P), count_cons. unfold isub at 2. cbn [fst snd]. rewrite Pr. cbn [andb]. lia. }
  destruct V. constructor; cbn [nexto set_ents inodes]; auto.
  - intros d. cbn [ents set_ents]. unfold upd. destruct (d =? p); [exact W|auto].
  - intros d H. cbn [ents set_ents]. unfold upd. destruct (Z.eqb_spec d p) as [->|]; [|auto]. destruct Dp as (v & Ev & Dv). rewrite (H v Ev) in Dv. discriminate.
  - intros d v Ev Dv NE. destruct (iv_dot0 d v Ev Dv NE) as [A (q & B)]. split; [now apply SubDot|]. exists q. now apply SubDot.
  - intros d m j c I Pm. exact (iv_tgt0 d m j c (Sub _ _ I) Pm).
  - intros j v Ev Dv. rewrite (iv_file0 j v Ev Dv), Rf. rewrite (Z.eqb_sym j i). destruct b; [|lia]. destruct (Z.eqb_spec j p) as [->|]; [destruct Dp as (w & Ew & Dw); congruence|]. destruct (Z.eqb_spec i j) as [->|]; [congruence|lia].
  - intros j v Ev Dv. destruct (iv_dir0 j v Ev Dv) as [A B]. rewrite Rf, Sd. rewrite (Z.eqb_sym j i). split.
    + rewrite A. destruct b; [lia|]. destruct (Z.eqb_spec i j) as [->|]; [congruence|lia].
    + rewrite B. destruct b; [destruct (Z.eqb_spec j p); lia|]. destruct (Z.eqb_spec i j) as [->|]; [congruence|]. destruct (j =? p); lia.
  - intros q m j I Pm NE. apply SubDot; [|reflexivity]. apply (iv_par0 q m j (Sub _ _ I) Pm NE).
Qed.

(** an entry appears *)
Lemma inv_insert s dl rh ex p n i b l' : InvD s dl rh ex -> WFd hash l' -> Permutation (dents l') ((n, (i, b)) :: dents (ents s p)) -> proper n = true ->
  isdir s p -> (exists v, inodes s i = Some v /\ i_isdir v = b) -> (b = true -> ex i \/ In (DOTDOT, (p, true)) (dents (ents s i))) ->
  InvD (set_ents s p l') (fun j => dl j - (if b then d1 (j =? p) 1 else d1 (j =? i) 1)) (fun j => rh j + (if b then d1 (j =? i) 1 else 0)) ex.
Proof.
  intros V W P Pr Dp (vi & Ei & Di) Hpar. pose proof (isdir_rng _ _ _ _ _ V Dp) as Rp.
  assert (Inc : forall d x, In x (dents (ents s d)) -> In x (dents (ents (set_ents s p l') d))).
  { intros d x I. cbn [ents set_ents]. unfold upd. destruct (Z.eqb_spec d p) as [->|]; [|auto]. rewrite P. now right. }
  assert (Cases : forall d x, In x (dents (ents (set_ents s p l') d)) -> In x (dents (ents s d)) \/ (d = p /\ x = (n, (i, b)))).
  { intros d x. cbn [ents set_ents]. unfold upd. destruct (Z.eqb_spec d p) as [->|]; [|auto]. intros I. rewrite P in I. destruct I as [<-|I]; auto. }
  assert (Rf : forall j, refs (set_ents s p l') j = refs s j + d1 (i =? j) 1).
  { intros j. rewrite refs_set_ents by lia. unfold cnt. rewrite (count_perm _ _ _ P), count_cons. unfold points at 2. cbn [fst snd]. rewrite Pr. cbn [andb]. lia. }
  assert (Sd : forall j, subdirs (set_ents s p l') j = subdirs s j + d1 (j =? p) (d1 b 1)).
  { intros j. unfold subdirs. cbn [ents set_ents]. unfold upd. destruct (Z.eqb_spec j p) as [->|]; [|lia]. unfold sub. rewrite (count_perm _ _ _ P), count_cons. unfold isub at 1. cbn [fst snd]. rewrite Pr. cbn [andb]. lia. }
  destruct V. constructor; cbn [nexto set_ents inodes]; auto.
  - intros d. cbn [ents set_ents]. unfold upd. destruct (d =? p); [exact W|auto].
  - intros d H. cbn [ents set_ents]. unfold upd. destruct (Z.eqb_spec d p) as [->|]; [|auto]. destruct Dp as (v & Ev & Dv). rewrite (H v Ev) in Dv. discriminate.
  - intros d v Ev Dv NE. destruct (iv_dot0 d v Ev Dv NE) as [A (q & B)]. split; [now apply Inc|]. exists q. now apply Inc.
  - intros d m j c I Pm. apply Cases in I. destruct I as [I|[-> I]]; [exact (iv_tgt0 d m j c I Pm)|]. injection I as -> -> ->. exists vi. auto.
  - intros j v Ev Dv. rewrite (iv_file0 j v Ev Dv), Rf. rewrite (Z.eqb_sym j i). destruct b; [|lia]. destruct (Z.eqb_spec j p) as [->|]; [destruct Dp as (w & Ew & Dw); congruence|]. destruct (Z.eqb_spec i j) as [->|]; [congruence|lia].
  - intros j v Ev Dv. destruct (iv_dir0 j v Ev Dv) as [A B]. rewrite Rf, Sd. rewrite (Z.eqb_sym j i). split.
    + rewrite A. destruct b; [lia|]. destruct (Z.eqb_spec i j) as [->|]; [congruence|lia].
    + rewrite B. destruct b; [destruct (Z.eqb_spec j p); lia|]. destruct (Z.eqb_spec i j) as [->|]; [congruence|]. destruct (j =? p); lia.
  - intros q m j I Pm NE. apply Inc. apply Cases in I. destruct I as [I|[-> I]]; [exact (iv_par0 q m j I Pm NE)|]. injection I as -> -> <-. destruct (Hpar eq_refl) as [X|X]; [contradiction|exact X].
Qed.

(** "." and ".." are written *)
Lemma inv_dots s dl rh ex d n j l' rest : InvD s dl rh ex -> WFd hash l' -> (Permutation (dents (ents s d)) rest \/ exists e0, Permutation (dents (ents s d)) ((n, e0) :: rest)) ->
  Permutation (dents l') ((n, (j, true)) :: rest) -> isdir s d -> (n = DOT /\ j = d \/ n = DOTDOT /\ ex d) -> InvD (set_ents s d l') dl rh ex.
Proof.
  intros V W P0 P Dd Hn. assert (Pn : proper n = false) by (destruct Hn as [[-> _]|[-> _]]; reflexivity). pose proof (isdir_rng _ _ _ _ _ V Dd) as Rd.
  assert (Cp : forall m e, proper m = true -> In (m, e) (dents l') <-> In (m, e) (dents (ents s d))).
  { intros m e Pm. rewrite P. destruct P0 as [P0|(e0 & P0)]; rewrite P0; cbn [In]; split; intros I; auto; destruct I as [I|I]; auto; injection I as <- _; congruence. }
  assert (Ck : forall pr : name * ent -> bool, (forall x, proper (fst x) = false -> pr x = false) -> count pr (dents l') = count pr (dents (ents s d))).
  { intros pr H. rewrite (count_perm _ _ _ P), count_cons, H by exact Pn. destruct P0 as [P0|(e0 & P0)]; rewrite (count_perm _ _ _ P0); [lia|]. rewrite count_cons, H by exact Pn. reflexivity. }
  assert (Rf : forall k, refs (set_ents s d l') k = refs s k).
  { intros k. rewrite refs_set_ents by lia. unfold cnt. rewrite Ck; [lia|]. intros x Px. unfold points. now rewrite Px. }
  assert (Sd : forall k, subdirs (set_ents s d l') k = subdirs s k).
  { intros k. unfold subdirs. cbn [ents set_ents]. unfold upd. destruct (Z.eqb_spec k d) as [->|]; [|lia]. unfold sub. apply Ck. intros x Px. unfold isub. now rewrite Px. }
  assert (Inn : In (n, (j, true)) (dents l')) by (rewrite P; now left).
  assert (Io : forall m e, m <> n -> In (m, e) (dents (ents s d)) -> In (m, e) (dents l')).
  { intros m e Hm I. rewrite P. right. destruct P0 as [P0|(e0 & P0)]; rewrite P0 in I; [exact I|]. destruct I as [I|I]; [congruence|exact I]. }
  destruct V. constructor; cbn [nexto set_ents inodes]; auto.
  - intros k. cbn [ents set_ents]. unfold upd. destruct (k =? d); [exact W|auto].
  - intros k H. cbn [ents set_ents]. unfold upd. destruct (Z.eqb_spec k d) as [->|]; [|auto]. destruct Dd as (v & Ev & Dv). rewrite (H v Ev) in Dv. discriminate.
  - intros k v Ev Dv NE. cbn [ents set_ents]. unfold upd. destruct (Z.eqb_spec k d) as [->|]; [|eauto]. destruct (iv_dot0 d v Ev Dv NE) as [A (q & B)]. destruct Hn as [[-> ->]|[-> _]].
    + split; [exact Inn|]. exists q. apply Io; [discriminate|exact B].
    + split; [apply Io; [discriminate|exact A]|]. exists j. exact Inn.
  - intros k m i c I Pm. cbn [ents set_ents] in I. unfold upd in I. destruct (Z.eqb_spec k d) as [->|]; [apply Cp in I; [|exact Pm]|]; eauto.
  - intros i v Ev Dv. rewrite Rf. auto.
  - intros i v Ev Dv. rewrite Rf, Sd. auto.
  - intros q m i I Pm NE. cbn [ents set_ents] in *. unfold upd in *. assert (I' : In (m, (i, true)) (dents (ents s q))) by (destruct (Z.eqb_spec q d) as [->|]; [now apply Cp in I|exact I]). specialize (iv_par0 q m i I' Pm NE). destruct (Z.eqb_spec i d) as [->|]; [|exact iv_par0].
    destruct Hn as [[-> ->]|[-> Ex]]; [apply Io; [discriminate|exact iv_par0]|contradiction].
Qed.

(** a directory whose "." and ".." are in order need not be excepted *)
Lemma inv_unexempt s dl rh ex d : InvD s dl rh ex -> In (DOT, (d, true)) (dents (ents s d)) -> (exists p, In (DOTDOT, (p, true)) (dents (ents s d))) ->
  (forall p n, In (n, (d, true)) (dents (ents s p)) -> proper n = true -> In (DOTDOT, (p, true)) (dents (ents s d))) -> InvD s dl rh (fun j => ex j /\ j <> d).
Proof.
  intros V A B C. destruct V. constructor; auto.
  - intros k v Ev Dv NE. destruct (Z.eq_dec k d) as [->|]; [auto|]. apply (iv_dot0 k v Ev Dv). tauto.
  - intros p n i I P NE. destruct (Z.eq_dec i d) as [->|]; [eauto|]. apply (iv_par0 p n i I P). tauto.
Qed.

Lemma inv_unexempt_file s dl rh ex d : InvD s dl rh ex -> ~ isdir s d -> InvD s dl rh (fun j => ex j /\ j <> d).
Proof.
  intros V Hd. destruct V. constructor; auto.
  - intros k v Ev Dv NE. destruct (Z.eq_dec k d) as [->|]; [exfalso; apply Hd; exists v; auto|]. apply (iv_dot0 k v Ev Dv). tauto.
  - intros p n i I P NE. destruct (Z.eq_dec i d) as [->|]; [exfalso; apply Hd; exact (iv_tgt0 _ _ _ _ I P)|]. apply (iv_par0 p n i I P). tauto.
Qed.

Lemma inv_nlink s dl rh ex i x : InvD s dl rh ex -> (exists v, inodes s i = Some v) -> exists s', add_nlink s i x = Some s' /\ InvD s' (fun j => dl j + d1 (j =? i) x) rh ex /\
  ents s' = ents s /\ nexto s' = nexto s /\ dying s' = dying s /\ (exists v, inodes s i = Some v /\ inodes s' = upd (inodes s) i (Some (Inode (i_isdir v) (i_nlink v + x)))).
Proof.
  intros V (v & Ev). unfold add_nlink. rewrite Ev. eexists. split; [reflexivity|]. split; [|cbn; repeat split; eauto].
  assert (IO : forall j w, inodes (set_inode s i (Some (Inode (i_isdir v) (i_nlink v + x)))) j = Some w -> exists w0, inodes s j = Some w0 /\ i_isdir w0 = i_isdir w /\ i_nlink w = i_nlink w0 + d1 (j =? i) x).
  { intros j w. cbn [inodes set_inode]. unfold upd. destruct (Z.eqb_spec j i) as [->|]; intros E; [injection E as <-; exists v; cbn; auto|exists w; split; [exact E|split; [reflexivity|lia]]]. }
  assert (OI : forall j w0, inodes s j = Some w0 -> exists w, inodes (set_inode s i (Some (Inode (i_isdir v) (i_nlink v + x)))) j = Some w /\ i_isdir w = i_isdir w0).
  { intros j w0 E. cbn [inodes set_inode]. unfold upd. destruct (Z.eqb_spec j i) as [->|]; [rewrite Ev in E; injection E as <-; eexists; split; [reflexivity|reflexivity]|eauto]. }
  destruct V. constructor; cbn [nexto set_inode ents]; auto.
  - destruct iv_root0 as (r & Er & Dr). destruct (OI _ _ Er) as (w & Ew & Dw). exists w. split; [exact Ew|congruence].
  - intros j w E. destruct (IO j w E) as (w0 & E0 & _). eauto.
  - intros d H. apply iv_empty0. intros w E. destruct (OI _ _ E) as (w' & E' & D'). rewrite <- D'. eauto.
  - intros d w E Dw. destruct (IO d w E) as (w0 & E0 & D0 & _). apply (iv_dot0 d w0 E0). congruence.
  - intros d m j b I P. destruct (iv_tgt0 d m j b I P) as (w0 & E0 & D0). destruct (OI _ _ E0) as (w & Ew & Dw). exists w. split; [exact Ew|congruence].
  - intros j w E Dw. destruct (IO j w E) as (w0 & E0 & D0 & N0). rewrite refs_set_inode, N0, (iv_file0 j w0 E0) by congruence. lia.
  - intros j w E Dw. destruct (IO j w E) as (w0 & E0 & D0 & N0). destruct (iv_dir0 j w0 E0 ltac:(congruence)) as [A B]. rewrite refs_set_inode. split; [exact A|]. rewrite N0, B. change (subdirs (set_inode s i _) j) with (subdirs s j). lia.
Qed.

Lemma inv_delete s dl rh ex v : InvD s dl rh ex -> v <> 1 -> refs s v = 0 -> (forall x, In x (dents (ents s v)) -> proper (fst x) = false) -> InvD (delete_object s v) dl rh ex.
Proof.
  intros V N1 R0 Np. destruct (inodes s v) as [w|] eqn:Ew.
  2:{ (* nothing there *) assert (E0 : ents s v = []) by (apply (iv_empty _ _ _ _ V); intros x Ex; congruence).
      assert (Sm : forall d, ents (delete_object s v) d = ents s d) by (intros d; cbn [delete_object set_inode set_ents ents]; unfold upd; destruct (Z.eqb_spec d v); [subst; now rewrite E0|reflexivity]).
      assert (Si : forall j, inodes (delete_object s v) j = inodes s j) by (intros j; cbn [delete_object set_inode set_ents inodes]; unfold upd; destruct (Z.eqb_spec j v); [subst; now rewrite Ew|reflexivity]).
      assert (Rf : forall j, refs (delete_object s v) j = refs s j) by (intros j; unfold refs; apply zsum_ext; intros d _; now rewrite Sm).
      assert (Sd : forall j, subdirs (delete_object s v) j = subdirs s j) by (intros j; unfold subdirs; now rewrite Sm).
      destruct V. constructor; cbn [nexto delete_object set_inode set_ents].
      - assumption.
      - rewrite Si. assumption.
      - intros i x. rewrite Si. apply iv_rng0.
      - intros d. rewrite Sm. auto.
      - intros d H. rewrite Sm. apply iv_empty0. intros x Ex. apply H. now rewrite Si.
      - intros d x. rewrite Si, Sm. apply iv_dot0.
      - intros d m j b. rewrite Sm, Si. apply iv_tgt0.
      - intros j x. rewrite Si, Rf. apply iv_file0.
      - intros j x. rewrite Si, Rf, Sd. apply iv_dir0.
      - intros p m j. rewrite !Sm. apply iv_par0. }
  assert (Rv : 1 <= v < nexto s) by exact (iv_rng _ _ _ _ V v w Ew).
  assert (C0 : forall pr : name * ent -> bool, (forall x, proper (fst x) = false -> pr x = false) -> count pr (dents (ents s v)) = 0).
  { intros pr H. apply count_all_false. intros x Ix. apply H. auto. }
  assert (Rf : forall j, refs (delete_object s v) j = refs s j).
  { intros j. unfold delete_object. rewrite refs_set_inode, refs_set_ents by lia. unfold cnt. rewrite C0; [cbn; lia|]. intros x Px. unfold points. now rewrite Px. }
  assert (Se : forall d, d <> v -> ents (delete_object s v) d = ents s d) by (intros d H; cbn [delete_object set_inode set_ents ents]; unfold upd; destruct (Z.eqb_spec d v); congruence).
  assert (Sv : ents (delete_object s v) v = []) by (cbn [delete_object set_inode set_ents ents]; unfold upd; now rewrite Z.eqb_refl).
  assert (Si : forall j x, inodes (delete_object s v) j = Some x -> j <> v /\ inodes s j = Some x) by (intros j x; cbn [delete_object set_inode set_ents inodes]; unfold upd; destruct (Z.eqb_spec j v); [discriminate|auto]).
  assert (Is : forall j, j <> v -> inodes (delete_object s v) j = inodes s j) by (intros j H; cbn [delete_object set_inode set_ents inodes]; unfold upd; destruct (Z.eqb_spec j v); congruence).
  assert (NoEnt : forall d n b, In (n, (v, b)) (dents (ents s d)) -> proper n = true -> False).
  { intros d n b I P. pose proof (isdir_rng _ _ _ _ _ V (ents_isdir _ _ _ _ _ _ V I)). pose proof (refs_pos s d n v b ltac:(lia) I P). lia. }
  assert (Ine : forall d x, In x (dents (ents (delete_object s v) d)) -> d <> v /\ In x (dents (ents s d))).
  { intros d x I. destruct (Z.eq_dec d v) as [->|Hd]; [rewrite Sv in I; contradiction|]. now rewrite Se in I. }
  destruct V. constructor; try (cbn [nexto delete_object set_inode set_ents]; assumption).
  - rewrite Is by lia. assumption.
  - intros i x E. apply Si in E. cbn [nexto delete_object set_inode set_ents]. apply (iv_rng0 i x). tauto.
  - intros d. destruct (Z.eq_dec d v) as [->|Hd]; [rewrite Sv; split; constructor|rewrite Se by exact Hd; auto].
  - intros d H. destruct (Z.eq_dec d v) as [->|Hd]; [exact Sv|]. rewrite Se by exact Hd. apply iv_empty0. intros x Ex. apply H. now rewrite Is.
  - intros d x E D NE. apply Si in E. destruct E as [Hd E]. rewrite Se by exact Hd. eauto.
  - intros d m j b I P. apply Ine in I. destruct I as [_ I]. destruct (iv_tgt0 d m j b I P) as (x & Ex & Dx). exists x. split; [|exact Dx]. rewrite Is; [exact Ex|]. intros ->. eauto.
  - intros j x E D. apply Si in E. rewrite Rf. apply iv_file0; tauto.
  - intros j x E D. apply Si in E. destruct E as [Hj E]. rewrite Rf. unfold subdirs. rewrite Se by exact Hj. apply iv_dir0; assumption.
  - intros p m j I P NE. apply Ine in I. destruct I as [_ I]. rewrite Se by (intros ->; eauto). eauto.
Qed.

Lemma inv_new_inode s dl rh ex b x : InvD s dl rh ex -> InvD (set_inode (set_next s (nexto s + 1)) (nexto s) (Some (Inode b x))) (fun j => if j =? nexto s then x - d1 b 2 else dl j) (fun j => if j =? nexto s then -1 else rh j) (fun j => ex j \/ j = nexto s).
Proof.
  intros V. remember (nexto s) as i eqn:Hi. assert (N0 : inodes s i = None). { destruct (inodes s i) as [v|] eqn:E; [|reflexivity]. apply (iv_rng _ _ _ _ V) in E. lia. }
  assert (E0 : ents s i = []) by (apply (iv_empty _ _ _ _ V); intros v Ev; congruence).
  assert (Rf : forall j, refs (set_inode (set_next s (i + 1)) i (Some (Inode b x))) j = refs s j).
  { intros j. unfold refs. cbn [nexto set_inode set_next ents]. rewrite <- Hi. apply refs_range; [pose proof (iv_next _ _ _ _ V); lia|]. intros d Hd. replace d with i by lia. exact E0. }
  assert (Ri : refs s i = 0). { pose proof (refs_nonneg s i). destruct (Z.eq_dec (refs s i) 0); [assumption|]. destruct (refs_inv s i ltac:(lia)) as (d & m & c & I & P). destruct (iv_tgt _ _ _ _ V d m i c I P) as (v & Ev & _). congruence. }
  destruct V. constructor; cbn [nexto set_inode set_next ents inodes]; try lia; auto.
  - destruct iv_root0 as (r & Er & Dr). exists r. unfold upd. destruct (Z.eqb_spec 1 i) as [E|]; [rewrite E in Er; congruence|auto].
  - intros j v E. unfold upd in E. destruct (Z.eqb_spec j i) as [->|]; [lia|]. apply iv_rng0 in E. lia.
  - intros d H. unfold upd in H. destruct (Z.eqb_spec d i) as [Ed|Ed]; [now rewrite Ed|auto].
  - intros d v E Dv NE. unfold upd in E. destruct (Z.eqb_spec d i) as [->|]; [exfalso; apply NE; now right|]. apply (iv_dot0 d v E Dv). tauto.
  - intros d m j c I P. destruct (iv_tgt0 d m j c I P) as (v & Ev & Dv). exists v. unfold upd. destruct (Z.eqb_spec j i) as [->|]; [congruence|auto].
  - intros j v E Dv. rewrite Rf. unfold upd in E. destruct (Z.eqb_spec j i) as [->|]; [|auto]. injection E as <-. cbn [i_isdir i_nlink] in *. subst b. rewrite Ri. lia.
  - intros j v E Dv. rewrite Rf. unfold subdirs. cbn [ents set_inode set_next]. unfold upd in E. destruct (Z.eqb_spec j i) as [->|]; [|unfold subdirs in iv_dir0; auto]. injection E as <-. cbn [i_isdir i_nlink] in *. subst b. rewrite Ri, E0. change (sub (dents [])) with 0. destruct (Z.eqb_spec i 1); lia.
  - intros p m j I P NE. apply (iv_par0 p m j I P). tauto.
Qed.
End Inv.
