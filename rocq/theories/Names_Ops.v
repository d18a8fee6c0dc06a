(** Every operation of the name space preserves its invariant and changes exactly the names it should. *)
From Verif Require Import Common HTable_Model HTable_Props Names_Model Names_Dir Names_Proofs.
From Coq Require Import Permutation.

Section Ops.
Context (hash : name -> Z) (dhash : Z -> Z).
Notation InvD := (InvD hash).
Notation WFd := (WFd hash).
Notation d1 b x := (if b : bool then x else 0).

(** what a lookup finds, and what kind of object a number denotes *)
Definition N (s : fs) (d : Z) (n : name) : option ent := match dir_get hash (ents s d) n with Ok (_, e) => Some e | _ => None end.
Definition kind (s : fs) (i : Z) : option bool := option_map i_isdir (inodes s i).

Lemma N_iff s d n e : WFd (ents s d) -> N s d n = Some e <-> In (n, e) (dents (ents s d)).
Proof.
  intros W. unfold N. pose proof (dir_get_spec hash (ents s d) n W) as H. destruct (dir_get hash (ents s d) n) as [[n' e']| |].
  - destruct H as [-> H]. split; intros E; [injection E as <-; exact H|]. f_equal. exact (dents_unique hash _ _ _ _ W H E).
  - split; [discriminate|]. intros I. exfalso. exact (H e I).
  - contradiction.
Qed.
Lemma N_none s d n : WFd (ents s d) -> N s d n = None <-> forall e, ~ In (n, e) (dents (ents s d)).
Proof.
  intros W. split.
  - intros E e I. apply N_iff in I; [congruence|exact W].
  - intros H. destruct (N s d n) as [e|] eqn:E; [|reflexivity]. apply N_iff in E; [|exact W]. exfalso. exact (H e E).
Qed.
Lemma opt_ext {A} (a b : option A) : (forall e, a = Some e <-> b = Some e) -> a = b.
Proof. intros H. destruct a as [x|]; [symmetry; now apply H|]. destruct b as [y|]; [now apply H|reflexivity]. Qed.

Definition hit (d : Z) (n : name) (d' : Z) (n' : name) : bool := (d' =? d) && name_eqb n' n.
Lemma hit_spec d n d' n' : reflect (d' = d /\ n' = n) (hit d n d' n').
Proof.
  clear hash dhash. unfold hit. destruct (Z.eqb_spec d' d); cbn [andb]; [|constructor; tauto]. destruct (name_eqb n' n) eqn:E; [apply name_eqb_spec in E; constructor; auto|]. constructor. intros [_ H]. apply name_eqb_spec in H. congruence.
Qed.

Lemma N_set_ents_other s d l d' m : d' <> d -> N (set_ents s d l) d' m = N s d' m.
Proof. intros H. unfold N. cbn [ents set_ents]. unfold upd. destruct (Z.eqb_spec d' d); [contradiction|reflexivity]. Qed.
Lemma ents_set_same s d l : ents (set_ents s d l) d = l.
Proof. cbn [ents set_ents]. unfold upd. now rewrite Z.eqb_refl. Qed.

Lemma N_ins s d n e l rest d' m : WFd (ents s d) -> WFd l -> (Permutation (dents (ents s d)) rest /\ (forall e0, ~ In (n, e0) (dents (ents s d))) \/ exists e0, Permutation (dents (ents s d)) ((n, e0) :: rest)) ->
  Permutation (dents l) ((n, e) :: rest) -> N (set_ents s d l) d' m = if hit d n d' m then Some e else N s d' m.
Proof.
  clear dhash. intros W Wl P0 P. destruct (hit_spec d n d' m) as [[-> ->]|H].
  - apply N_iff; rewrite ents_set_same; [exact Wl|]. rewrite P. now left.
  - destruct (Z.eq_dec d' d) as [->|Hd]; [|now apply N_set_ents_other]. assert (Hm : m <> n) by tauto. apply opt_ext. intros x. rewrite !N_iff by (rewrite ?ents_set_same; assumption). rewrite ents_set_same, P. destruct P0 as [[P0 _]|(e0 & P0)]; rewrite P0; cbn [In]; split; intros I; try tauto.
    + destruct I as [I|I]; [congruence|exact I].
    + destruct I as [I|I]; [congruence|]. now right.
    + destruct I as [I|I]; [congruence|]. now right.
Qed.
Lemma N_rem s d n e l d' m : WFd (ents s d) -> WFd l -> Permutation (dents (ents s d)) ((n, e) :: dents l) -> N (set_ents s d l) d' m = if hit d n d' m then None else N s d' m.
Proof.
  clear dhash. intros W Wl P. destruct (hit_spec d n d' m) as [[-> ->]|H].
  - apply N_none; rewrite ents_set_same; [exact Wl|]. intros e' I. pose proof (dents_nodup hash _ W) as ND. apply (Permutation_map fst) in P. apply (Permutation_NoDup P) in ND. cbn [map fst] in ND. inversion ND; subst. apply H1. apply in_map_iff. exists (n, e'). auto.
  - destruct (Z.eq_dec d' d) as [->|Hd]; [|now apply N_set_ents_other]. assert (Hm : m <> n) by tauto. apply opt_ext. intros x. rewrite !N_iff by (rewrite ?ents_set_same; assumption). rewrite ents_set_same, P. cbn [In]. split; [auto|]. intros [I|I]; [congruence|exact I].
Qed.
Lemma N_delete s v d m : N (delete_object s v) d m = if d =? v then None else N s d m.
Proof. unfold N. cbn [delete_object set_inode set_ents ents]. unfold upd. destruct (d =? v); reflexivity. Qed.
Lemma N_same s s' d m : ents s' = ents s -> N s' d m = N s d m.
Proof. intros E. unfold N. now rewrite E. Qed.

Definition DyInv (s : fs) : Prop :=
  (forall h i, dying s h = Some i -> dhash i = h /\ exists v, inodes s i = Some v /\ i_isdir v = false /\ i_nlink v = 0) /\
  (forall i v, inodes s i = Some v -> i_isdir v = false -> i_nlink v = 0 -> dying s (dhash i) = Some i).
Definition Inv (s : fs) : Prop := InvD s (fun _ => 0) (fun _ => 0) (fun _ => False) /\ DyInv s.

(** changes that do not create or remove a file without links *)
Lemma dy_same s s' : DyInv s -> dying s' = dying s ->
  (forall i v, inodes s i = Some v -> i_isdir v = false -> i_nlink v = 0 -> inodes s' i = Some v) ->
  (forall i v, inodes s' i = Some v -> i_isdir v = false -> i_nlink v = 0 -> inodes s i = Some v) -> DyInv s'.
Proof.
  intros [A B] E F G. split; rewrite E.
  - intros h i Hd. destruct (A h i Hd) as (H & v & Ev & Dv & Nv). split; [exact H|]. exists v. auto.
  - intros i v Ev Dv Nv. apply (B i v); auto.
Qed.
Lemma dy_set_ents s d l : DyInv s -> DyInv (set_ents s d l).
Proof. intros H. apply (dy_same s); auto. Qed.
Lemma dy_inode s i x : DyInv s -> (forall v, inodes s i = Some v -> i_isdir v = true \/ i_nlink v <> 0) -> (forall v, x = Some v -> i_isdir v = true \/ i_nlink v <> 0) -> DyInv (set_inode s i x).
Proof.
  intros H A B. apply (dy_same s); auto; cbn [inodes set_inode]; unfold upd; intros j v.
  - intros Ev Dv Nv. destruct (Z.eqb_spec j i) as [->|]; [|exact Ev]. destruct (A v Ev); congruence.
  - destruct (Z.eqb_spec j i) as [->|]; [|auto]. intros Ev Dv Nv. destruct (B v Ev); congruence.
Qed.

Lemma de_insert_new s d n e : WFd (ents s d) -> N s d n = None ->
  exists l, de_insert hash s d n e = Some (None, set_ents s d l) /\ WFd l /\ Permutation (dents l) ((n, e) :: dents (ents s d)).
Proof.
  intros W E. pose proof (proj1 (N_none s d n W) E) as E'. unfold de_insert. destruct (dir_insert_spec hash (ents s d) n e W) as (r & l & -> & Wl & H). destruct r as [[n' e0]|].
  - destruct H as (_ & I & _). exfalso. exact (E' e0 I).
  - destruct H as [_ P]. exists l. auto.
Qed.
Lemma de_insert_old s d n e e0 : WFd (ents s d) -> N s d n = Some e0 ->
  exists l rest, de_insert hash s d n e = Some (Some e0, set_ents s d l) /\ WFd l /\ Permutation (dents (ents s d)) ((n, e0) :: rest) /\ Permutation (dents l) ((n, e) :: rest).
Proof.
  intros W E. pose proof (proj1 (N_iff s d n e0 W) E) as E'. unfold de_insert. destruct (dir_insert_spec hash (ents s d) n e W) as (r & l & -> & Wl & H). destruct r as [[n' e1]|].
  - destruct H as (-> & I & rest & P1 & P2). pose proof (dents_unique hash _ _ _ _ W E' I) as <-. exists l, rest. auto.
  - destruct H as [H _]. exfalso. exact (H e0 E').
Qed.
(** whether or not there was an entry *)
Lemma de_insert_any s d n e : WFd (ents s d) -> exists o l rest, de_insert hash s d n e = Some (o, set_ents s d l) /\ WFd l /\
   (Permutation (dents (ents s d)) rest /\ (forall e0, ~ In (n, e0) (dents (ents s d))) \/ exists e0, Permutation (dents (ents s d)) ((n, e0) :: rest)) /\ Permutation (dents l) ((n, e) :: rest).
Proof.
  intros W. destruct (N s d n) as [e0|] eqn:E.
  - destruct (de_insert_old s d n e e0 W E) as (l & rest & H & Wl & P1 & P2). exists (Some e0), l, rest. eauto 6.
  - destruct (de_insert_new s d n e W E) as (l & H & Wl & P). exists None, l, (dents (ents s d)). split; [exact H|split; [exact Wl|split; [|exact P]]]. left. split; [reflexivity|]. exact (proj1 (N_none s d n W) E).
Qed.

Lemma kind_isdir s i : kind s i = Some true <-> isdir s i.
Proof. unfold kind, isdir. destruct (inodes s i) as [v|]; cbn; split; [intros E; injection E as E; eauto|intros (w & E & D); injection E as <-; now rewrite D|discriminate|intros (w & E & _); discriminate]. Qed.

Definition Creates (s : fs) (p : Z) (n : name) (b : bool) (s' : fs) : Prop :=
  let i := nexto s in nexto s' = i + 1 /\ (forall j, kind s' j = if j =? i then Some b else kind s j) /\
  forall d m, N s' d m = if hit p n d m then Some (i, b) else if b && hit i DOT d m then Some (i, true) else if b && hit i DOTDOT d m then Some (p, true) else N s d m.

Lemma fresh_none s dl rh ex : InvD s dl rh ex -> inodes s (nexto s) = None.
Proof. intros V. destruct (inodes s (nexto s)) as [v|] eqn:E; [|reflexivity]. apply (iv_rng _ _ _ _ _ V) in E. lia. Qed.


(** the state with the new inode *)
Lemma create_pre s p n b : Inv s -> isdir s p -> proper n = true -> N s p n = None ->
  exists l, let i := nexto s in let s1 := set_inode (set_next s (i + 1)) i (Some (Inode b (if b then 2 else 1))) in
   de_insert hash s1 p n (i, b) = Some (None, set_ents s1 p l) /\ p <> i /\
   InvD (set_ents s1 p l) (fun j => if b then d1 (j =? p) (-1) else 0) (fun _ => 0) (fun j => j = i) /\ DyInv (set_ents s1 p l) /\
   WFd l /\ Permutation (dents l) ((n, (i, b)) :: dents (ents s p)) /\ (forall d m, N (set_ents s1 p l) d m = if hit p n d m then Some (i, b) else N s d m).
Proof.
  intros [V Dy] Dp Pn En. pose proof (fresh_none _ _ _ _ V) as Fr. remember (nexto s) as i eqn:Hi.
  pose proof (inv_new_inode hash s _ _ _ b (if b then 2 else 1) V) as V1. cbn beta in V1. rewrite <- Hi in V1. remember (set_inode (set_next s (i + 1)) i (Some (Inode b (if b then 2 else 1)))) as s1 eqn:Hs1.
  assert (En1 : N s1 p n = None) by (subst s1; exact En). destruct (de_insert_new s1 p n (i, b) (iv_wf _ _ _ _ _ V1 p) En1) as (l & El & Wl & P). exists l. cbn zeta. rewrite <- Hs1.
  assert (Npi : p <> i). { intros E. destruct Dp as (v & Ev & _). congruence. }
  assert (Dp1 : isdir s1 p). { destruct Dp as (v & Ev & Dv). exists v. split; [|exact Dv]. subst s1. cbn [inodes set_inode]. unfold upd. destruct (Z.eqb_spec p i); [contradiction|exact Ev]. }
  assert (Ii : inodes s1 i = Some (Inode b (if b then 2 else 1))) by (subst s1; cbn [inodes set_inode]; unfold upd; now rewrite Z.eqb_refl).
  split; [exact El|]. split; [exact Npi|]. split; [|split; [|split; [exact Wl|split]]].
  - pose proof (inv_insert hash s1 _ _ _ p n i b l V1 Wl P Pn Dp1 (ex_intro _ _ (conj Ii eq_refl)) ltac:(intros _; left; now right)) as V2.
    apply (InvD_ext hash _ _ _ _ _ _ _ V2); [|intros j [X| -> ]; [destruct X|reflexivity]]. intros j v Ev. cbn [inodes set_ents] in Ev. destruct (Z.eqb_spec j i) as [Ej|Ej].
    + rewrite Ej in *. rewrite Ii in Ev. injection Ev as <-. destruct (Z.eqb_spec i p); [congruence|]. destruct b; cbn [i_isdir]; (split; [lia|]); [lia|discriminate].
    + destruct b; destruct (Z.eqb_spec j p); split; lia.
  - apply dy_set_ents. subst s1. apply dy_inode.
    + apply (dy_same s); auto.
    + cbn [inodes set_next]. intros v. rewrite Fr. discriminate.
    + intros v E. injection E as <-. destruct b; cbn; [now left|now right].
  - subst s1. exact P.
  - intros d m. rewrite (N_ins s1 p n (i, b) l (dents (ents s1 p))); [|exact (iv_wf _ _ _ _ _ V1 p)|exact Wl|left; split; [reflexivity|]|exact P].
    + subst s1. reflexivity.
    + exact (proj1 (N_none s1 p n (iv_wf _ _ _ _ _ V1 p)) En1).
Qed.

Lemma create_ok s p n : Inv s -> isdir s p -> proper n = true -> N s p n = None ->
  exists s', do_create hash s p n false = Some (ROk (nexto s), s') /\ Inv s' /\ Creates s p n false s'.
Proof.
  intros I Dp Pn En. pose proof (fresh_none _ _ _ _ (proj1 I)) as Fr. destruct (create_pre s p n false I Dp Pn En) as (l & El & Npi & V & Dy & Wl & P & HN). cbn zeta in *. unfold do_create. cbn [inodes set_next]. rewrite Fr, El. cbn [set_ents inodes set_inode]. unfold upd at 1. destruct (Z.eqb_spec p (nexto s)); [contradiction|]. destruct Dp as (vp & Evp & Dvp). cbn [set_next inodes]. rewrite Evp. eexists. split; [reflexivity|]. split; [split; [|exact Dy]|].
  - apply (InvD_ext hash _ _ _ _ _ _ _ (inv_unexempt_file hash _ _ _ _ (nexto s) V ltac:(intros (v & Ev & Dv); cbn in Ev; unfold upd in Ev; rewrite Z.eqb_refl in Ev; injection Ev as <-; discriminate))); [auto|]. intros j [A B]. contradiction.
  - split; [reflexivity|]. split; [intros j; unfold kind; cbn [inodes set_ents set_inode set_next]; unfold upd; destruct (j =? nexto s); reflexivity|]. intros d m. cbn [andb]. apply HN.
Qed.

Lemma mkdir_ok s p n : Inv s -> isdir s p -> proper n = true -> N s p n = None ->
  exists s', do_create hash s p n true = Some (ROk (nexto s), s') /\ Inv s' /\ Creates s p n true s'.
Proof.
  intros I Dp Pn En. pose proof (fresh_none _ _ _ _ (proj1 I)) as Fr. destruct (create_pre s p n true I Dp Pn En) as (l & El & Npi & V & Dy & Wl & P & HN). cbn zeta in *. unfold do_create. cbn [inodes set_next]. rewrite Fr, El.
  remember (nexto s) as i eqn:Hi. remember (set_ents (set_inode (set_next s (i + 1)) i (Some (Inode true 2))) p l) as s2 eqn:Hs2.
  assert (Di : isdir s2 i) by (exists (Inode true 2); subst s2; cbn; unfold upd; now rewrite Z.eqb_refl).
  destruct (de_insert_any s2 i DOT (i, true) (iv_wf _ _ _ _ _ V i)) as (o3 & l3 & r3 & -> & W3 & P3 & P3').
  pose proof (inv_dots hash s2 _ _ _ i DOT i l3 r3 V W3 ltac:(destruct P3 as [[A B]|A]; auto) P3' Di ltac:(auto)) as V3.
  remember (set_ents s2 i l3) as s3 eqn:Hs3. assert (Di3 : isdir s3 i) by (subst s3; exact Di).
  destruct (de_insert_any s3 i DOTDOT (p, true) (iv_wf _ _ _ _ _ V3 i)) as (o4 & l4 & r4 & -> & W4 & P4 & P4').
  pose proof (inv_dots hash s3 _ _ _ i DOTDOT p l4 r4 V3 W4 ltac:(destruct P4 as [[A B]|A]; auto) P4' Di3 ltac:(auto)) as V4.
  remember (set_ents s3 i l4) as s4 eqn:Hs4. destruct Dp as (vp & Evp & Dvp).
  assert (Ip : inodes s4 p = Some vp). { subst s4 s3 s2. cbn. unfold upd. destruct (Z.eqb_spec p i); [contradiction|exact Evp]. }
  destruct (inv_nlink hash s4 _ _ _ p 1 V4 (ex_intro _ vp Ip)) as (s5 & -> & V5 & Ee & En5 & Ed & v' & Ev' & Ei). rewrite Ip in Ev'. injection Ev' as <-.
  assert (HN4 : forall d m, N s4 d m = if hit i DOTDOT d m then Some (p, true) else if hit i DOT d m then Some (i, true) else if hit p n d m then Some (i, true) else N s d m).
  { intros d m. subst s4. rewrite (N_ins s3 i DOTDOT (p, true) l4 r4 d m (iv_wf _ _ _ _ _ V3 i) W4 P4 P4'). destruct (hit i DOTDOT d m); [reflexivity|]. subst s3. rewrite (N_ins s2 i DOT (i, true) l3 r3 d m (iv_wf _ _ _ _ _ V i) W3 P3 P3'). destruct (hit i DOT d m); [reflexivity|]. apply HN. }
  assert (Mine : forall q m b, In (m, (i, b)) (dents (ents s4 q)) -> proper m = true -> q = p).
  { intros q m b J Pm. apply N_iff in J; [|exact (iv_wf _ _ _ _ _ V4 q)]. rewrite HN4 in J. destruct (hit_spec i DOTDOT q m) as [[-> ->]|]; [discriminate|]. destruct (hit_spec i DOT q m) as [[-> ->]|]; [discriminate|]. destruct (hit_spec p n q m) as [[-> _]|]; [reflexivity|].
    apply N_iff in J; [|exact (iv_wf _ _ _ _ _ (proj1 I) q)]. destruct (iv_tgt _ _ _ _ _ (proj1 I) _ _ _ _ J Pm) as (w & Ew & _). congruence. }
  eexists. split; [reflexivity|]. split; [split|].
  - assert (Hdd : In (DOTDOT, (p, true)) (dents (ents s5 i))). { rewrite Ee. apply N_iff; [exact (iv_wf _ _ _ _ _ V4 i)|]. rewrite HN4. destruct (hit_spec i DOTDOT i DOTDOT); tauto. }
    pose proof (inv_unexempt hash s5 _ _ _ i V5) as V6. apply (InvD_ext hash _ _ _ _ _ _ _ (V6 ltac:(rewrite Ee; apply N_iff; [exact (iv_wf _ _ _ _ _ V4 i)|]; rewrite HN4; destruct (hit_spec i DOTDOT i DOT) as [[_ ?]|]; [discriminate|]; destruct (hit_spec i DOT i DOT); tauto)
      ltac:(exists p; exact Hdd) ltac:(intros q m J Pm; rewrite Ee in J; rewrite (Mine q m true J Pm); exact Hdd))); [|intros j [A B]; contradiction].
    intros j v Ev. destruct (j =? p); split; lia.
  - apply (dy_same s2); [exact Dy|rewrite Ed; subst s4 s3; reflexivity| |]; rewrite Ei; unfold upd; intros j v; replace (inodes s4) with (inodes s2) by (subst s4 s3; reflexivity); destruct (Z.eqb_spec j p) as [->|]; auto.
    + intros Ev Dv. assert (inodes s2 p = Some vp) by (subst s4 s3; exact Ip). congruence.
    + intros E. injection E as <-. cbn. congruence.
  - split; [rewrite En5; subst s4 s3 s2; cbn; lia|]. split.
    + intros j. unfold kind. rewrite Ei. unfold upd. subst s4 s3 s2. cbn [inodes set_ents set_inode set_next]. unfold upd. rewrite <- Hi. destruct (Z.eqb_spec j p) as [->|]; [destruct (Z.eqb_spec p i); [contradiction|]; rewrite Evp; reflexivity|]. destruct (j =? i); reflexivity.
    + intros d m. rewrite (N_same s4 s5 d m Ee), HN4, <- Hi. cbn [andb]. destruct (hit_spec i DOTDOT d m) as [[-> ->]|].
      * destruct (hit_spec p n i DOTDOT) as [[A B]|]; [congruence|]. destruct (hit_spec i DOT i DOTDOT) as [[_ X]|]; [discriminate|reflexivity].
      * destruct (hit_spec i DOT d m) as [[-> ->]|]; [|reflexivity]. destruct (hit_spec p n i DOT) as [[A B]|]; [congruence|reflexivity].
Qed.

(** states that look the same *)
Lemma inv_state_ext s s' dl rh ex : InvD s dl rh ex -> (forall d, Permutation (dents (ents s d)) (dents (ents s' d))) -> (forall d, WFd (ents s' d)) -> (forall d, ents s d = [] -> ents s' d = []) ->
  (forall i, inodes s' i = inodes s i) -> nexto s' = nexto s -> InvD s' dl rh ex.
Proof.
  intros V P W Z I Nx. assert (Rf : forall j, refs s' j = refs s j) by (intros j; unfold refs; rewrite Nx; apply zsum_ext; intros d _; symmetry; apply count_perm, P).
  assert (Sd : forall j, subdirs s' j = subdirs s j) by (intros j; symmetry; apply count_perm, P).
  assert (In_ : forall d x, In x (dents (ents s' d)) <-> In x (dents (ents s d))) by (intros d x; split; apply Permutation_in; [symmetry|]; apply P).
  destruct V. constructor; rewrite ?Nx; auto.
  - rewrite I. assumption.
  - intros i v. rewrite I. apply iv_rng.
  - intros d H. apply Z, iv_empty. intros v Ev. apply H. now rewrite I.
  - intros d v. rewrite I. intros Ev Dv NE. destruct (iv_dot d v Ev Dv NE) as [A (q & B)]. split; [now apply In_|]. exists q. now apply In_.
  - intros d n i b J Pn. rewrite I. apply In_ in J. eauto.
  - intros i v. rewrite I, Rf. auto.
  - intros i v. rewrite I, Rf, Sd. auto.
  - intros q n i J Pn NE. apply In_. apply In_ in J. eauto.
Qed.
Lemma inv_perm s dl rh ex d l : InvD s dl rh ex -> isdir s d -> WFd l -> Permutation (dents (ents s d)) (dents l) -> InvD (set_ents s d l) dl rh ex.
Proof.
  clear dhash. intros V D W P. assert (Wf := iv_wf _ _ _ _ _ V). destruct V. assert (Rr : 1 <= d < nexto s) by (destruct D as (v & Ev & _); eauto).
  assert (Rf : forall j, refs (set_ents s d l) j = refs s j) by (intros j; rewrite refs_set_ents by lia; unfold cnt; rewrite (count_perm _ _ _ P); lia).
  assert (In_ : forall e x, In x (dents (ents (set_ents s d l) e)) <-> In x (dents (ents s e))) by (intros e x; cbn [ents set_ents]; unfold upd; destruct (Z.eqb_spec e d) as [->|]; [|tauto]; split; apply Permutation_in; [symmetry|]; exact P).
  assert (Sd : forall j, subdirs (set_ents s d l) j = subdirs s j) by (intros j; unfold subdirs, sub; cbn [ents set_ents]; unfold upd; destruct (Z.eqb_spec j d) as [->|]; [symmetry; apply count_perm, P|reflexivity]).
  constructor; cbn [nexto set_ents inodes]; auto.
  - intros e. cbn [ents set_ents]. unfold upd. destruct (e =? d); auto.
  - intros e H. cbn [ents set_ents]. unfold upd. destruct (Z.eqb_spec e d) as [->|]; [|auto]. destruct D as (v & Ev & Dv). rewrite (H v Ev) in Dv. discriminate.
  - intros e v Ev Dv NE. destruct (iv_dot e v Ev Dv NE) as [A (q & B)]. split; [now apply In_|]. exists q. now apply In_.
  - intros e n i b J Pn. apply In_ in J. eauto.
  - intros i v. rewrite Rf. auto.
  - intros i v. rewrite Rf, Sd. auto.
  - intros q n i J Pn NE. apply In_. apply In_ in J. eauto.
Qed.
Lemma N_perm s d l d' m : WFd (ents s d) -> WFd l -> Permutation (dents (ents s d)) (dents l) -> N (set_ents s d l) d' m = N s d' m.
Proof.
  clear dhash. intros W Wl P. destruct (Z.eq_dec d' d) as [->|]; [|now apply N_set_ents_other]. apply opt_ext. intros e. rewrite !N_iff by (rewrite ?ents_set_same; assumption). rewrite ents_set_same. split; apply Permutation_in; [symmetry|]; exact P.
Qed.

Lemma file_not_root s dl rh ex i : InvD s dl rh ex -> kind s i = Some false -> i <> 1.
Proof. intros V K ->. destruct (iv_root _ _ _ _ _ V) as (v & Ev & Dv). unfold kind in K. rewrite Ev in K. cbn in K. congruence. Qed.
Lemma kind_some s i b : kind s i = Some b -> exists v, inodes s i = Some v /\ i_isdir v = b.
Proof. unfold kind. destruct (inodes s i) as [v|]; [|discriminate]. cbn. intros E. injection E as E. eauto. Qed.
Lemma file_ents s dl rh ex i : InvD s dl rh ex -> kind s i = Some false -> ents s i = [].
Proof. intros V K. apply (iv_empty _ _ _ _ _ V). intros v Ev. destruct (kind_some _ _ _ K) as (w & Ew & Dw). congruence. Qed.

Lemma filter_id {A} (f : A -> bool) l : (forall x, In x l -> f x = true) -> filter f l = l.
Proof. induction l as [|x l IH]; intros H; [reflexivity|]. cbn [filter]. rewrite (H x (or_introl eq_refl)), IH; [reflexivity|]. intros y Iy. apply H. now right. Qed.
Lemma link_ok s p i n : Inv s -> isdir s p -> proper n = true -> kind s i = Some false -> 1 <= refs s i -> (forall m e, N s p m = Some e -> hash m <> hash n) ->
  exists s', do_link hash s p i n = Some (ROk i, s') /\ Inv s' /\ nexto s' = nexto s /\ (forall j, kind s' j = kind s j) /\ forall d m, N s' d m = if hit p n d m then Some (i, false) else N s d m.
Proof.
  intros [V Dy] Dp Pn K Hr NC. destruct (kind_some _ _ _ K) as (v & Ev & Dv). unfold do_link. rewrite Ev.
  pose proof (inv_nlink hash s _ _ _ i 1 V (ex_intro _ v Ev)) as (s1 & E1 & V1 & Ee & _). unfold add_nlink in E1. rewrite Ev in E1. injection E1 as E1.
  pose proof (iv_wf _ _ _ _ _ V p) as Wp. destruct (raw_insert_spec hash (ents s p) n (i, i_isdir v) Wp) as [Wl P].
  assert (F : filter (fun x => negb (hash (fst x) =? hash n)) (dents (ents s p)) = dents (ents s p)).
  { apply filter_id. intros [m e] J. cbn [fst]. apply N_iff in J; [|exact Wp]. specialize (NC m e J). lia. }
  rewrite F in P. rewrite E1. assert (Ex : ents s1 p = ents s p) by now rewrite Ee. cbn zeta. rewrite Ex. rewrite Dv in *. set (l := dput _ _ _) in *.
  assert (Ds1 : forall j, kind s1 j = kind s j). { intros j. rewrite <- E1. unfold kind. cbn [inodes set_inode]. unfold upd. destruct (Z.eqb_spec j i) as [->|]; [|reflexivity]. rewrite Ev. cbn. now rewrite Dv. }
  assert (Dp1 : isdir s1 p) by (apply kind_isdir; rewrite Ds1; now apply kind_isdir).
  assert (Npn : forall e0, ~ In (n, e0) (dents (ents s p))). { intros e0 J. apply N_iff in J; [|exact Wp]. now apply (NC n e0 J). }
  pose proof (inv_insert hash s1 _ _ _ p n i false l V1 Wl ltac:(rewrite Ex; exact P) Pn Dp1 (kind_some s1 i false ltac:(now rewrite Ds1)) ltac:(discriminate)) as V2.
  cbn [inodes set_ents]. destruct Dp1 as (vp & Evp & _). rewrite Evp. eexists. split; [reflexivity|]. split; [split|split; [|split]].
  - apply (InvD_ext hash _ _ _ _ _ _ _ V2); [|auto]. intros j w _. destruct (j =? i); split; lia.
  - apply dy_set_ents. rewrite <- E1. apply dy_inode; [exact Dy| |]; intros w Ew; right.
    + rewrite Ev in Ew. injection Ew as <-. rewrite (iv_file _ _ _ _ _ V i v Ev Dv). lia.
    + injection Ew as <-. cbn [i_nlink]. rewrite (iv_file _ _ _ _ _ V i v Ev Dv). lia.
  - rewrite <- E1. reflexivity.
  - intros j. exact (Ds1 j).
  - intros d m. rewrite (N_ins s1 p n (i, false) l (dents (ents s p))); [|rewrite Ex; exact Wp|exact Wl|left; rewrite Ex; split; [reflexivity|exact Npn]|exact P]. rewrite (N_same s s1 d m Ee). reflexivity.
Qed.

Lemma inv_set_dying s dl rh ex h x : InvD s dl rh ex -> InvD (set_dying s h x) dl rh ex.
Proof. intros V. destruct V. constructor; auto. Qed.
Lemma delete_file_ents s dl rh ex i : InvD s dl rh ex -> kind s i = Some false -> forall d, ents (delete_object s i) d = ents s d.
Proof. intros V K d. cbn [delete_object set_inode set_ents ents]. unfold upd. destruct (Z.eqb_spec d i) as [->|]; [|reflexivity]. now rewrite (file_ents _ _ _ _ _ V K). Qed.
Lemma kind_delete s i j : kind (delete_object s i) j = if j =? i then None else kind s j.
Proof. unfold kind. cbn [delete_object set_inode set_ents inodes]. unfold upd. destruct (j =? i); reflexivity. Qed.

Lemma do_unlink_ok s active i ex : InvD s (fun j => d1 (j =? i) 1) (fun _ => 0) ex -> DyInv s -> kind s i = Some false -> (active = true -> refs s i = 0 -> dying s (dhash i) = None) ->
  exists s', do_unlink dhash s active i = Some s' /\ InvD s' (fun _ => 0) (fun _ => 0) ex /\ DyInv s' /\ nexto s' = nexto s /\ (forall d, ents s' d = ents s d) /\
   (forall j, kind s' j = if (j =? i) && ((refs s i =? 0) && negb active) then None else kind s j).
Proof.
  intros V Dy K Hd. destruct (kind_some _ _ _ K) as (v & Ev & Dv). pose proof (iv_file _ _ _ _ _ V i v Ev Dv) as Nl. cbn beta in Nl. rewrite Z.eqb_refl in Nl. pose proof (refs_nonneg s i) as R0. unfold do_unlink. rewrite Ev. cbn zeta. destruct (Z.eqb_spec (i_nlink v) 0); [lia|].
  pose proof (inv_nlink hash s _ _ _ i (-1) V (ex_intro _ v Ev)) as (s1 & E1 & V1 & Ee & _). unfold add_nlink in E1. rewrite Ev in E1. injection E1 as E1. change (i_nlink v + -1) with (i_nlink v - 1) in E1.
  assert (V1' : InvD s1 (fun _ => 0) (fun _ => 0) ex) by (apply (InvD_ext hash _ _ _ _ _ _ _ V1); [|auto]; intros j w _; destruct (j =? i); split; lia).
  assert (K1 : forall j, kind s1 j = kind s j). { intros j. rewrite <- E1. unfold kind. cbn [inodes set_inode]. unfold upd. destruct (Z.eqb_spec j i) as [->|]; [|reflexivity]. now rewrite Ev. }
  destruct (Z.ltb_spec 0 (i_nlink v - 1)) as [Hpos|Hz]; cbn [orb].
  - rewrite E1. destruct (Z.eqb_spec (i_nlink v - 1) 0); [lia|]. exists s1. split; [reflexivity|]. split; [exact V1'|]. split; [|split; [rewrite <- E1; reflexivity|split; [intros d; now rewrite Ee|]]].
    + rewrite <- E1. apply dy_inode; [exact Dy| |]; intros w Ew; right; [congruence|injection Ew as <-; cbn; lia].
    + intros j. rewrite K1. destruct (Z.eqb_spec (refs s i) 0); [lia|]. cbn [andb]. now rewrite andb_false_r.
  - assert (Rz : refs s i = 0) by lia. destruct active.
    + rewrite E1. destruct (Z.eqb_spec (i_nlink v - 1) 0) as [En|]; [|lia]. rewrite (Hd eq_refl Rz). eexists. split; [reflexivity|]. split; [now apply inv_set_dying|]. split; [|split; [rewrite <- E1; reflexivity|split; [intros d; cbn [ents set_dying]; now rewrite Ee|]]].
      * destruct Dy as [A B]. rewrite <- E1. split; cbn [dying set_dying set_inode inodes]; unfold upd.
        -- intros h j. destruct (Z.eqb_spec h (dhash i)) as [->|].
           ++ intros E. injection E as <-. split; [reflexivity|]. rewrite Z.eqb_refl. eexists. split; [reflexivity|]. cbn. auto.
           ++ intros E. destruct (A h j E) as (Hh & w & Ew & Dw & Nw). split; [exact Hh|]. destruct (Z.eqb_spec j i) as [->|]; [congruence|eauto].
        -- intros j w. destruct (Z.eqb_spec j i) as [->|]; [rewrite Z.eqb_refl; reflexivity|]. intros Ew Dw Nw. specialize (B j w Ew Dw Nw). destruct (Z.eqb_spec (dhash j) (dhash i)) as [Eq|]; [|exact B]. rewrite Eq, (Hd eq_refl Rz) in B. discriminate.
      * intros j. change (kind (set_dying s1 (dhash i) (Some i)) j) with (kind s1 j). rewrite K1. cbn [negb]. now rewrite !andb_false_r.
    + eexists. split; [reflexivity|]. split; [|split; [|split; [reflexivity|split; [exact (delete_file_ents _ _ _ _ _ V K)|]]]].
      * apply (InvD_ext hash _ (fun j => d1 (j =? i) 1) (fun _ => 0) ex); [|intros j w Ew; cbn [delete_object set_inode set_ents inodes] in Ew; unfold upd in Ew; destruct (j =? i); [discriminate|auto]|auto].
        apply inv_delete; [exact V|exact (file_not_root _ _ _ _ _ V K)|exact Rz|]. rewrite (file_ents _ _ _ _ _ V K). contradiction.
      * unfold delete_object. apply dy_inode; [now apply dy_set_ents| |discriminate]. intros w Ew. cbn [inodes set_ents] in Ew. right. congruence.
      * intros j. rewrite kind_delete, Rz. cbn [Z.eqb negb andb]. now rewrite andb_true_r.
Qed.

Lemma unlink_ok s p n a i : Inv s -> isdir s p -> proper n = true -> N s p n = Some (i, false) -> (a = true -> refs s i = 1 -> dying s (dhash i) = None) ->
  exists s', unlink hash dhash s p n a = Some (ROk i, s') /\ Inv s' /\ nexto s' = nexto s /\ (forall d m, N s' d m = if hit p n d m then None else N s d m) /\
   (forall j, kind s' j = if (j =? i) && ((refs s i =? 1) && negb a) then None else kind s j).
Proof.
  intros [V Dy] Dp Pn En Hd. pose proof (iv_wf _ _ _ _ _ V p) as W. pose proof (proj1 (N_iff s p n _ W) En) as Ie. unfold unlink. pose proof (dir_remove_spec hash (ents s p) n W) as H. destruct (dir_remove hash (ents s p) n) as [r l]. destruct H as [Wl H]. destruct r as [[n' e]| |]; [|destruct H as [H _]; exfalso; exact (H _ Ie)|contradiction].
  destruct H as (-> & I & P). pose proof (dents_unique hash _ _ _ _ W I Ie) as ->.
  pose proof (inv_remove hash s _ _ _ p n i false l V Wl P Pn) as V1. assert (K : kind s i = Some false). { destruct (iv_tgt _ _ _ _ _ V _ _ _ _ Ie Pn) as (v & Ev & Dv). unfold kind. rewrite Ev. cbn. now rewrite Dv. }
  assert (R1 : refs (set_ents s p l) i = refs s i - 1). { pose proof (isdir_rng _ _ _ _ _ _ V Dp) as Rp. rewrite refs_set_ents by lia. unfold cnt. rewrite (count_perm _ _ _ P), count_cons. unfold points at 1. cbn [fst snd]. rewrite Pn, Z.eqb_refl. cbn [andb]. lia. }
  destruct (do_unlink_ok (set_ents s p l) a i (fun _ => False)) as (s' & -> & V' & Dy' & Nx & Ee & Kd).
  - apply (InvD_ext hash _ _ _ _ _ _ _ V1); auto; intros j v _; split; lia.
  - now apply dy_set_ents.
  - exact K.
  - intros Ea Er. rewrite R1 in Er. apply (Hd Ea). lia.
  - assert (Kp : kind s' p = Some true). { rewrite Kd. destruct (Z.eqb_spec p i) as [->|]; [apply kind_isdir in Dp; congruence|]. cbn [andb]. now apply kind_isdir. }
    destruct (kind_some _ _ _ Kp) as (vp & -> & _). exists s'. split; [reflexivity|]. split; [now split|]. split; [exact Nx|]. split.
    + intros d m. rewrite <- (N_rem s p n (i, false) l d m W Wl P). unfold N. now rewrite Ee.
    + intros j. rewrite Kd, R1. replace (refs s i - 1 =? 0) with (refs s i =? 1) by lia. reflexivity.
Qed.
Lemma unlink_enoent s p n a : Inv s -> isdir s p -> N s p n = None ->
  exists s', unlink hash dhash s p n a = Some (RErr ENOENT, s') /\ Inv s' /\ nexto s' = nexto s /\ (forall d m, N s' d m = N s d m) /\ (forall j, kind s' j = kind s j).
Proof.
  intros [V Dy] Dp En. pose proof (iv_wf _ _ _ _ _ V p) as W. pose proof (proj1 (N_none s p n W) En) as Ie. unfold unlink. pose proof (dir_remove_spec hash (ents s p) n W) as H. destruct (dir_remove hash (ents s p) n) as [r l]. destruct H as [Wl H]. destruct r as [[n' e]| |]; [destruct H as (-> & I & _); exfalso; exact (Ie _ I)| |contradiction].
  destruct H as [_ P]. assert (P' : Permutation (dents (ents s p)) (dents l)) by (first [exact P|symmetry; exact P]). eexists. split; [reflexivity|]. split; [split; [now apply inv_perm|now apply dy_set_ents]|]. split; [reflexivity|]. split; [intros d m; now apply N_perm|reflexivity].
Qed.

(** ** rmdir *)
Definition empty_dir (s : fs) (i : Z) : Prop := forall m e, N s i m = Some e -> proper m = false.
Lemma ok_to_rmdir_ok s p n i : Inv s -> proper n = true -> N s p n = Some (i, true) ->
  ok_to_rmdir s i = Some true /\ empty_dir s i \/ ok_to_rmdir s i = Some false /\ (hash DOT <> hash DOTDOT -> ~ empty_dir s i).
Proof.
  intros [V Dy] Pn En. pose proof (iv_wf _ _ _ _ _ V p) as W. apply N_iff in En; [|exact W]. destruct (iv_tgt _ _ _ _ _ V _ _ _ _ En Pn) as (v & Ev & Dv). destruct (iv_dir _ _ _ _ _ V i v Ev Dv) as [Rf Nl].
  pose proof (isdir_rng _ _ _ _ _ _ V (ents_isdir _ _ _ _ _ _ _ V En)) as Rp. pose proof (refs_pos s p n i true ltac:(lia) En Pn) as R1. destruct (Z.eqb_spec i 1) as [|Hi]; [lia|].
  unfold ok_to_rmdir. destruct (forallb (fun kc => only_dots (snd kc)) (ents s i)) eqn:F.
  - left. rewrite forallb_forall in F. assert (Em : forall x, In x (dents (ents s i)) -> proper (fst x) = false).
    { intros x Ix. unfold dents in Ix. apply in_flat_map in Ix. destruct Ix as ([k c] & Ic & Ix). specialize (F _ Ic). cbn [snd] in *. destruct c as [[m e]|l|]; cbn [only_dots cell_items] in *; try discriminate. destruct Ix as [<-|[]]. cbn [fst]. unfold proper. now rewrite F. }
    assert (Sz : subdirs s i = 0). { unfold subdirs, sub. apply count_all_false. intros x Ix. unfold isub. now rewrite (Em x Ix). }
    rewrite Ev, Dv. rewrite Nl, Sz. split; [reflexivity|]. intros m e E. apply N_iff in E; [|exact (iv_wf _ _ _ _ _ V i)]. exact (Em _ E).
  - right. split; [reflexivity|]. intros Hh Em. assert (X : forallb (fun kc => only_dots (snd kc)) (ents s i) = true); [|congruence]. apply forallb_forall. intros [k c] Ic. cbn [snd].
    pose proof (iv_wf _ _ _ _ _ V i) as Wi. destruct (proj1 (Forall_forall _ _) (proj2 Wi) _ Ic) as (C1 & C2 & C3). cbn [fst snd] in *.
    assert (Em' : forall m e, In (m, e) (cell_items c) -> m = DOT \/ m = DOTDOT).
    { intros m e Im. assert (Iy : In (m, e) (dents (ents s i))) by (apply in_flat_map; exists (k, c); auto). apply N_iff in Iy; [|exact Wi]. apply Em in Iy. unfold proper in Iy. apply negb_false_iff, orb_true_iff in Iy. rewrite !name_eqb_spec in Iy. exact Iy. }
    destruct c as [[m e]|l|]; cbn [only_dots cell_items] in *.
    + rewrite orb_true_iff, !name_eqb_spec. apply (Em' m e). now left.
    + exfalso. destruct l as [|[m1 e1] [|[m2 e2] l]]; cbn [length] in C1; try lia. inversion C2 as [|? ? D1 D2]; subst. inversion C3 as [|? ? H1 H2]; subst. inversion H2 as [|? ? H3 H4]; subst. cbn [fst map In] in *.
      assert (m1 <> m2) by (intros ->; apply D1; now left). destruct (Em' m1 e1 (or_introl eq_refl)) as [->| ->]; destruct (Em' m2 e2 (or_intror (or_introl eq_refl))) as [->| ->]; congruence.
    + contradiction.
Qed.
Lemma not_empty_has s p n e : proper n = true -> N s p n = Some e -> ~ empty_dir s p.
Proof. intros Pn E H. specialize (H n e E). congruence. Qed.

Lemma rmdir_ok s p n i : Inv s -> isdir s p -> proper n = true -> N s p n = Some (i, true) ->
  (exists s', rmdir hash s p n = Some (ROk i, s') /\ empty_dir s i /\ Inv s' /\ nexto s' = nexto s /\ (forall d m, N s' d m = if d =? i then None else if hit p n d m then None else N s d m) /\
     (forall j, kind s' j = if j =? i then None else kind s j)) \/
  (rmdir hash s p n = Some (RErr ENOTEMPTY, s) /\ (hash DOT <> hash DOTDOT -> ~ empty_dir s i)).
Proof.
  intros I Dp Pn En. destruct (I) as [V Dy]. pose proof (iv_wf _ _ _ _ _ V p) as W. pose proof (proj1 (N_iff s p n _ W) En) as Ie. unfold rmdir. unfold N in En. destruct (dir_get hash (ents s p) n) as [[n' e]| |] eqn:Eg; try discriminate. injection En as ->. assert (En : N s p n = Some (i, true)) by (unfold N; now rewrite Eg).
  destruct (ok_to_rmdir_ok s p n i I Pn En) as [[-> Em]|[-> Ne]]; [left|right; auto].
  pose proof (dir_remove_spec hash (ents s p) n W) as H. destruct (dir_remove hash (ents s p) n) as [r l]. destruct H as [Wl H]. destruct r as [[n'' e]| |]; [|destruct H as [H _]; exfalso; exact (H _ Ie)|contradiction].
  destruct H as (-> & Ip & P). pose proof (dents_unique hash _ _ _ _ W Ip Ie) as ->.
  pose proof (inv_remove hash s _ _ _ p n i true l V Wl P Pn) as V1. assert (Npi : i <> p) by (intros ->; exact (not_empty_has _ _ _ _ Pn En Em)).
  destruct (iv_tgt _ _ _ _ _ V _ _ _ _ Ie Pn) as (v & Ev & Dv). pose proof (isdir_rng _ _ _ _ _ _ V Dp) as Rp. pose proof (refs_pos s p n i true ltac:(lia) Ie Pn) as R1. destruct (iv_dir _ _ _ _ _ V i v Ev Dv) as [Rf _]. destruct (Z.eqb_spec i 1) as [|Hi]; [lia|].
  destruct (iv_dir _ _ _ _ _ V1 i v Ev Dv) as [Rf1 _]. cbn beta in Rf1. rewrite Z.eqb_refl in Rf1. destruct (Z.eqb_spec i 1); [lia|].
  unfold do_rmdir. assert (V2 := inv_delete hash (set_ents s p l) _ _ _ i V1 Hi ltac:(lia)). assert (Hpr : forall x, In x (dents (ents (set_ents s p l) i)) -> proper (fst x) = false).
  { intros [m e] Ix. cbn [fst]. cbn [ents set_ents] in Ix. unfold upd in Ix. destruct (Z.eqb_spec i p); [contradiction|]. apply N_iff in Ix; [|exact (iv_wf _ _ _ _ _ V i)]. exact (Em m e Ix). }
  specialize (V2 Hpr). destruct Dp as (vp & Evp & Dvp). assert (Ip2 : inodes (delete_object (set_ents s p l) i) p = Some vp) by (cbn; unfold upd; destruct (Z.eqb_spec p i); [congruence|exact Evp]).
  destruct (inv_nlink hash _ _ _ _ p (-1) V2 (ex_intro _ vp Ip2)) as (s3 & -> & V3 & Ee & Nx & Ed & v' & Ev' & Ei). rewrite Ip2 in Ev'. injection Ev' as <-. exists s3. split; [reflexivity|]. split; [exact Em|]. split; [split|split; [exact Nx|split]].
  - apply (InvD_ext hash _ _ _ _ _ _ _ V3); [|auto]. intros j w Ew. rewrite Ei in Ew. unfold upd in Ew. destruct (Z.eqb_spec j p) as [->|]; [destruct (Z.eqb_spec p i); split; lia|]. cbn [delete_object set_inode inodes] in Ew. unfold upd in Ew. destruct (j =? i); [discriminate|]. split; lia.
  - assert (Dy2 : DyInv (delete_object (set_ents s p l) i)). { unfold delete_object. apply dy_inode; [now apply dy_set_ents, dy_set_ents| |discriminate]. intros w Ew. cbn [inodes set_ents] in Ew. left. congruence. }
    apply (dy_same _ _ Dy2 Ed); rewrite Ei; unfold upd; intros j w; destruct (Z.eqb_spec j p) as [->|]; auto; [rewrite Ip2; intros; congruence|intros E; injection E as <-; cbn; congruence].
  - intros d m. rewrite (N_same _ s3 d m Ee), N_delete. destruct (d =? i); [reflexivity|]. apply (N_rem s p n (i, true) l d m W Wl P).
  - intros j. unfold kind at 1. rewrite Ei. unfold upd. destruct (Z.eqb_spec j p) as [->|].
    + destruct (Z.eqb_spec p i); [congruence|]. unfold kind. rewrite Evp. reflexivity.
    + exact (kind_delete (set_ents s p l) i j).
Qed.
Lemma rmdir_enoent s p n : Inv s -> N s p n = None -> rmdir hash s p n = Some (RErr ENOENT, s).
Proof.
  intros [V _] En. unfold rmdir. unfold N in En. pose proof (dir_get_spec hash (ents s p) n (iv_wf _ _ _ _ _ V p)) as H. destruct (dir_get hash (ents s p) n) as [[n' e]| |]; [discriminate|reflexivity|contradiction].
Qed.
End Ops.
