(** C105: a mounted file system obeys its properties, and can be unmounted. *)
From Coq Require Import String.
From Verif Require Import Common ZMap Prop_Model MountProp_Model.
From Coq Require Import List.
Import ListNotations.
Open Scope Z_scope.

(** * The claim *)

(** [above par t k a]: [a] is the ancestor of [t] [k] levels up. *)
Inductive above (par : Z -> option Z) : Z -> nat -> Z -> Prop :=
| above_here t : above par t 0 t
| above_more t t' k a : par t = Some t' -> above par t' k a -> above par t (S k) a.

(** The mounted file system [m] works as the property says: reading updates access
    times or not, new files get the record size, and it is mounted at the path. *)
Definition in_use (m : mnt) (p : property) : Prop :=
  match p with
  | Atime b => m_atime m = b
  | RecordSize e => m_recsize m = e
  | Mountpoint mp => m_path m = mp
  | _ => False
  end.

(** The properties that matter to a mounted file system. *)
Definition counts (n : pname) : Prop := n = NAtime \/ n = NRecordSize \/ n = NMountpoint.

(** Every property is stored under its own name. *)
Definition typed (p : Z -> pname -> option property) : Prop :=
  forall t n v, p t n = Some v -> name_of v = n.

Section C105.
Context (par : Z -> option Z) (name : Z -> text) (bld : build) (fuel : nat).
Notation told := (told par name bld fuel).
Notation step := (step par name bld fuel).
Notation run := (run par name bld fuel).

(** What histories are restricted to: nothing is set on a data set while one below
    it is mounted; a property of a mounted one is written without errors; nothing
    is mounted where something is; and nothing is unmounted that is not mounted, if
    something else is at its mountpoint. *)
Definition fair (s : st) (o : op) : Prop :=
  match o with
  | Set_ t p w => (forall m k, In m (mounted s) -> ~ above par (m_tree m) (S k) t) /\
                  (w = false -> forall m, In m (mounted s) -> m_tree m <> t)
  | Mount t k => forall mp m, told s t NMountpoint = Some (Mountpoint mp) -> In m (mounted s) -> m_path m <> mp
  | Unmount t _ => forall mp m, told s t NMountpoint = Some (Mountpoint mp) -> In m (mounted s) -> m_path m = mp ->
                     exists m', In m' (mounted s) /\ m_tree m' = t
  | _ => True
  end.

Fixpoint all_fair (s : st) (os : list op) : Prop :=
  match os with [] => True | o :: r => fair s o /\ all_fair (fst (step s o)) r end.

(** * Lemmas *)

Lemma eqb_text a b : text_eqb a b = true <-> a = b.
Proof.
  revert b. induction a as [|x a IH]; intros [|y b]; cbn; split; intros H; try easy.
  - apply andb_true_iff in H. destruct H as [H1 H2]. apply Z.eqb_eq in H1. apply IH in H2. now subst.
  - injection H as -> ->. rewrite Z.eqb_refl. cbn. now apply IH.
Qed.

Lemma eqb_pname a b : pname_eqb a b = true <-> a = b.
Proof. destruct a, b; cbn; split; easy. Qed.

Lemma in_gone t l : existsb (Z.eqb t) l = true <-> In t l.
Proof.
  rewrite existsb_exists. split.
  - intros (x & H & E). apply Z.eqb_eq in E. now subst.
  - intros H. exists t. split; [exact H|apply Z.eqb_refl].
Qed.

(** ** What is told *)

Lemma loop_same p q n d : forall f t lvl,
  (forall k a, above par t k a -> p a n = q a n) ->
  get_prop_loop par p bld f t n d lvl = get_prop_loop par q bld f t n d lvl.
Proof.
  induction f as [|f IH]; intros t lvl H; cbn [get_prop_loop]; [reflexivity|].
  rewrite (H 0%nat t) by constructor. destruct (q t n); [reflexivity|].
  destruct (par t) as [t'|] eqn:E; [|reflexivity].
  assert (H' : forall k a, above par t' k a -> p a n = q a n).
  { intros k a U. apply (H (S k)). econstructor; eauto. }
  destruct (lvl =? 255); [destruct bld; [apply IH, H'|reflexivity]|apply IH, H'].
Qed.

(** The name under which a property is stored. *)
Definition base (n : pname) : pname := match n with NMountpoint => NBaseMountpoint | x => x end.

Lemma get_same p q d t n :
  (forall k a, above par t k a -> p a (base n) = q a (base n)) ->
  get_prop par p bld fuel d t n = get_prop par q bld fuel d t n.
Proof.
  intros H. unfold get_prop. destruct n; try reflexivity; cbn [name_inheritable base] in *;
  unfold get_prop_configurable; cbn [default_value]; now rewrite (loop_same p q _ _ fuel t 0 H).
Qed.

Lemma told_same s s' t n :
  (forall k a, above par t k a -> stored s a (base n) = stored s' a (base n)) -> told s t n = told s' t n.
Proof. intros H. unfold told. now rewrite (get_same (stored s) (stored s') (name t) t n H). Qed.

Lemma told_stored s s' t n : stored s = stored s' -> told s t n = told s' t n.
Proof. intros H. apply told_same. intros. now rewrite H. Qed.

Lemma loop_found p n d v k : forall t a lvl, above par t k a -> p a n = Some v ->
  (forall j b, (j < k)%nat -> above par t j b -> p b n = None) -> 0 <= lvl -> lvl + Z.of_nat k <= 255 ->
  forall f, (k < f)%nat -> get_prop_loop par p bld f t n d lvl = Some (v, SSet (lvl + Z.of_nat k)).
Proof.
  induction k as [|k IH]; intros t a lvl U P N H0 H f Hf; inversion U; subst; (destruct f as [|f]; [lia|]); cbn [get_prop_loop].
  - rewrite P. do 2 f_equal. f_equal. lia.
  - rewrite (N 0%nat t); [|lia|constructor]. rewrite H2. destruct (Z.eqb_spec lvl 255); [lia|].
    rewrite (IH t' a (lvl + 1)); auto; [|intros j b Hj Ub; apply (N (S j) b); [lia|econstructor; eauto]|lia|lia|lia].
    do 2 f_equal. f_equal. lia.
Qed.

Lemma told_found s t n v k a : n = NAtime \/ n = NRecordSize -> name_of v = n ->
  above par t k a -> stored s a n = Some v ->
  (forall j b, (j < k)%nat -> above par t j b -> stored s b n = None) ->
  (k <= 255)%nat -> (k < fuel)%nat -> told s t n = Some v.
Proof.
  intros Hn Hv U P N Hk Hf.
  assert (E : forall d, get_prop_loop par (stored s) bld fuel t n d 0 = Some (v, SSet (0 + Z.of_nat k))).
  { intros d. eapply loop_found; eauto; lia. }
  unfold MountProp_Model.told, get_prop. destruct Hn as [-> | ->]; cbn [name_inheritable];
  unfold get_prop_configurable; cbn [default_value]; rewrite E; destruct v; cbn in Hv; try discriminate; reflexivity.
Qed.

(** ** The invariant *)

Record good (s : st) : Prop := {
  g_ok : zm_ok (table s);
  g_tab : forall m, In m (mounted s) -> zm_get (m_tree m) (table s) = Some (m_id m);
  g_inj : forall t t' i, zm_get t (table s) = Some i -> zm_get t' (table s) = Some i -> t = t';
  g_old : forall t i, zm_get t (table s) = Some i -> i < next s;
  g_nd : NoDup (map m_id (mounted s));
  g_path : NoDup (map m_path (mounted s));
  g_gone : forall m, In m (mounted s) -> ~ In (m_tree m) (gone s);
  g_told : forall m n, In m (mounted s) -> counts n -> exists p, told s (m_tree m) n = Some p /\ name_of p = n /\ in_use m p
}.

Lemma good_start p : good (start p).
Proof. constructor; cbn; try easy; constructor. Qed.

Lemma same_id s m m' : good s -> In m (mounted s) -> In m' (mounted s) -> m_id m = m_id m' -> m = m'.
Proof.
  intros G. generalize (g_nd s G). generalize (mounted s). induction l as [|x l IH]; cbn [map In]; intros ND H H' E; [easy|].
  inversion ND as [|? ? NI ND']; subst. destruct H as [->|H], H' as [->|H']; auto.
  - exfalso. apply NI. rewrite E. now apply in_map.
  - exfalso. apply NI. rewrite <- E. now apply in_map.
Qed.

Lemma same_tree s m m' : good s -> In m (mounted s) -> In m' (mounted s) -> m_tree m = m_tree m' -> m = m'.
Proof.
  intros G H H' E. apply (same_id s); auto. pose proof (g_tab s G m H) as A. pose proof (g_tab s G m' H') as B.
  rewrite E in A. congruence.
Qed.

Lemma same_path s m m' : good s -> In m (mounted s) -> In m' (mounted s) -> m_path m = m_path m' -> m = m'.
Proof.
  intros G. generalize (g_path s G). generalize (mounted s). induction l as [|x l IH]; cbn [map In]; intros ND H H' E; [easy|].
  inversion ND as [|? ? NI ND']; subst. destruct H as [->|H], H' as [->|H']; auto.
  - exfalso. apply NI. rewrite E. now apply in_map.
  - exfalso. apply NI. rewrite <- E. now apply in_map.
Qed.

Lemma upgrade_some s t m : good s -> (upgrade s t = Some m <-> In m (mounted s) /\ m_tree m = t).
Proof.
  intros G. unfold upgrade. split.
  - destruct (zm_get t (table s)) as [i|] eqn:E; [|easy]. intros F. apply find_some in F. destruct F as [H Hi].
    apply Z.eqb_eq in Hi. split; [exact H|]. apply (g_inj s G) with (i := i); [|exact E].
    rewrite (g_tab s G m H). now rewrite Hi.
  - intros [H <-]. rewrite (g_tab s G m H). destruct (find _ (mounted s)) as [m'|] eqn:F.
    + apply find_some in F. destruct F as [H' E]. apply Z.eqb_eq in E. f_equal. apply (same_id s); auto.
    + pose proof (find_none _ _ F m H) as N. cbn in N. rewrite Z.eqb_refl in N. discriminate.
Qed.

Lemma upgrade_none s t : good s -> upgrade s t = None -> forall m, In m (mounted s) -> m_tree m <> t.
Proof.
  intros G U m H E. assert (X : upgrade s t = Some m) by (apply (proj2 (upgrade_some s t m G)); auto). congruence.
Qed.

(** unmount(2) takes out a mount at the path. *)
Lemma kernel_split path : forall l l', kernel_unmount path l = Some l' ->
  exists a m b, l = a ++ m :: b /\ l' = a ++ b /\ m_path m = path /\ Forall (fun x => m_path x <> path) a.
Proof.
  induction l as [|x l IH]; intros l'; cbn [kernel_unmount]; [easy|].
  destruct (text_eqb (m_path x) path) eqn:E.
  - intros [= <-]. apply eqb_text in E. exists [], x, l. repeat split; auto.
  - destruct (kernel_unmount path l) as [r|] eqn:K; [|easy]. intros [= <-].
    destruct (IH r eq_refl) as (a & m & b & -> & -> & P & F). exists (x :: a), m, b. repeat split; auto.
    constructor; [|exact F]. intros X. apply eqb_text in X. congruence.
Qed.

Lemma kernel_none path : forall l, kernel_unmount path l = None <-> forall m, In m l -> m_path m <> path.
Proof.
  induction l as [|x l IH]; cbn [kernel_unmount]; [split; easy|].
  destruct (text_eqb (m_path x) path) eqn:E.
  - apply eqb_text in E. split; [easy|]. intros H. exfalso. apply (H x); [now left|exact E].
  - destruct (kernel_unmount path l) as [r|]; split; try easy.
    + intros H. exfalso. assert (X : Some r = None); [|discriminate]. apply (proj2 IH). intros m Hm. apply H. now right.
    + intros _ m [->|Hm]; [intros X; apply eqb_text in X; congruence|]. now apply (proj1 IH).
Qed.

Lemma nd_app_mid {A B} (f : A -> B) a m b : NoDup (map f (a ++ m :: b)) -> NoDup (map f (a ++ b)).
Proof. rewrite !map_app. cbn [map]. apply NoDup_remove_1. Qed.

Lemma nd_app_out {A B} (f : A -> B) a m b x : NoDup (map f (a ++ m :: b)) -> In x (a ++ b) -> f x <> f m.
Proof.
  rewrite map_app. cbn [map]. intros H I E. apply NoDup_remove_2 in H. apply H. rewrite <- map_app, <- E. now apply in_map.
Qed.

(** ** Each request keeps the invariant *)

(** Writing a property of a data set below which nothing is mounted changes what is
    told about no mounted data set but itself. *)
Lemma told_put_other s t v t' n : t' <> t -> (forall k, ~ above par t' (S k) t) ->
  told (put s t v) t' n = told s t' n.
Proof.
  intros Hne Hb. apply told_same. intros k a U. cbn [stored put].
  destruct (Z.eqb_spec a t) as [->|_]; [|reflexivity]. exfalso.
  destruct k as [|k]; [inversion U; subst; congruence|exact (Hb k U)].
Qed.

Lemma told_put_self s t v : name_of v = NAtime \/ name_of v = NRecordSize -> (0 < fuel)%nat ->
  told (put s t v) t (name_of v) = Some v.
Proof.
  intros Hv Hf. apply told_found with (k := 0%nat) (a := t); auto; try (apply above_here); try (intros; lia).
  cbn [stored put]. rewrite Z.eqb_refl. assert (X : pname_eqb (name_of v) (name_of v) = true) by now apply eqb_pname.
  now rewrite X.
Qed.

Lemma told_put_name s t v t' n : base n <> name_of v -> told (put s t v) t' n = told s t' n.
Proof.
  intros H. apply told_same. intros k a _. cbn [stored put].
  destruct (pname_eqb (base n) (name_of v)) eqn:E; [apply eqb_pname in E; congruence|]. now rewrite andb_false_r.
Qed.

Lemma good_put_unmounted s t v : good s -> (forall m, In m (mounted s) -> m_tree m <> t) ->
  (forall m k, In m (mounted s) -> ~ above par (m_tree m) (S k) t) -> good (put s t v).
Proof.
  intros G H1 H2. destruct G as [a b c d e f g h]. constructor; cbn [table mounted next gone put]; auto.
  intros m n Hm Hn. destruct (h m n Hm Hn) as (p & T & Hp & U). exists p. split; [|now split].
  rewrite <- T. apply told_put_other; [now apply H1|]. intros k. now apply H2.
Qed.

Lemma fuel_pos s m : good s -> In m (mounted s) -> (0 < fuel)%nat.
Proof.
  intros G Hm. destruct (g_told s G m NAtime Hm) as (p & T & _); [now left|].
  destruct fuel as [|f]; [|lia]. unfold MountProp_Model.told, get_prop in T. cbn in T. discriminate.
Qed.

Lemma map_upd (f : mnt -> mnt) i l (A : Type) (g : mnt -> A) : (forall m, g (f m) = g m) ->
  map g (map (fun m => if m_id m =? i then f m else m) l) = map g l.
Proof. intros H. rewrite map_map. apply map_ext. intros m. destruct (m_id m =? i); auto. Qed.

Lemma good_set_mounted s m v f : good s -> In m (mounted s) ->
  (forall m' k, In m' (mounted s) -> ~ above par (m_tree m') (S k) (m_tree m)) ->
  name_of v = NAtime \/ name_of v = NRecordSize ->
  (forall x, m_id (f x) = m_id x) -> (forall x, m_tree (f x) = m_tree x) -> (forall x, m_path (f x) = m_path x) ->
  (forall x, in_use (f x) v) ->
  (forall x p, name_of p <> name_of v -> in_use x p -> in_use (f x) p) ->
  good (put (remember s (m_id m) f) (m_tree m) v).
Proof.
  intros G Hm Hb Hv F1 F2 F3 F4 F5. pose proof (fuel_pos s m G Hm) as Hf.
  pose proof (same_id s) as SI. destruct G as [a b c d e g h i] eqn:EG.
  constructor; cbn [table mounted next gone put remember stored]; auto.
  - intros x Hx. apply in_map_iff in Hx. destruct Hx as (y & <- & Hy). destruct (m_id y =? m_id m); rewrite ?F1, ?F2; auto.
  - now rewrite map_upd.
  - now rewrite map_upd.
  - intros x Hx. apply in_map_iff in Hx. destruct Hx as (y & <- & Hy). destruct (m_id y =? m_id m); rewrite ?F2; auto.
  - intros x n Hx Hn. apply in_map_iff in Hx. destruct Hx as (y & <- & Hy).
    destruct (Z.eqb_spec (m_id y) (m_id m)) as [E|E].
    + assert (y = m) by (apply SI; auto; rewrite EG; constructor; auto). subst y. rewrite F2.
      destruct (pname_eqb n (name_of v)) eqn:En.
      * apply eqb_pname in En. subst n. exists v. split; [|split; auto].
        change (told (put (remember s (m_id m) f) (m_tree m) v) (m_tree m) (name_of v) = Some v).
        now apply told_put_self.
      * assert (Hne : n <> name_of v) by (intros X; apply eqb_pname in X; congruence).
        destruct (i m n Hm Hn) as (p & T & Hp & U). exists p. split; [|split; auto; apply F5; congruence].
        rewrite <- T. transitivity (told (remember s (m_id m) f) (m_tree m) n).
        -- apply told_put_name. destruct Hn as [->|[->| ->]]; cbn [base]; try exact Hne. destruct Hv as [-> | ->]; discriminate.
        -- now apply told_stored.
    + destruct (i y n Hy Hn) as (p & T & Hp & U). exists p. split; [|now split].
      rewrite <- T. transitivity (told (remember s (m_id m) f) (m_tree y) n); [|now apply told_stored].
      apply told_put_other.
      * intros X. apply E. pose proof (b y Hy) as A. pose proof (b m Hm) as B. rewrite X in A. congruence.
      * intros k. now apply Hb.
Qed.

Lemma good_step s o : good s -> fair s o -> good (fst (step s o)).
Proof.
  intros G F. destruct o as [t p w|t k|t busy|path|t w]; cbn [MountProp_Model.step].
  - (* set *)
    destruct F as [F1 F2]. unfold set_prop. destruct (existsb _ _); [exact G|].
    assert (UN : (forall m, In m (mounted s) -> m_tree m <> t) -> good (fst (set_prop_unmounted s t (prop_inheritable p) w))).
    { intros H. assert (X : forall v, good (put s t v)) by (intros v; now apply good_put_unmounted).
      unfold set_prop_unmounted. destruct (prop_inheritable p); try destruct (strip_prefix _ _); destruct w; cbn [fst]; auto. }
    destruct (upgrade s t) as [m|] eqn:U; [|apply UN, upgrade_none; auto].
    apply (proj1 (upgrade_some s t m G)) in U. destruct U as [Hm <-].
    destruct w; [|exfalso; now apply (F2 eq_refl m)].
    unfold fs_set_prop. destruct (prop_inheritable p) as [b|x|x|x|e]; try exact G; cbn [set_prop_unmounted fst].
    + apply good_set_mounted; auto; try reflexivity. intros x [b'| | | |]; cbn; auto; congruence.
    + apply good_set_mounted; auto; try reflexivity. intros x [b'| | | |]; cbn; auto; congruence.
  - (* mount *)
    unfold mount. destruct (existsb _ _) eqn:Eg; [exact G|].
    destruct (told s t NMountpoint) as [[| |mp| |]|] eqn:Tm; try exact G.
    destruct (upgrade s t) as [m|] eqn:U; [exact G|].
    destruct (told s t NAtime) as [[a| | | |]|] eqn:Ta; try exact G.
    destruct (told s t NRecordSize) as [[| | | |r]|] eqn:Tr; try exact G.
    pose proof (upgrade_none s t G U) as NT. destruct G as [ga gb gc gd ge gf gg gh].
    assert (OLD : forall m, In m (mounted s) -> m_id m < next s) by (intros m Hm; eapply gd, gb; exact Hm).
    assert (INJ : forall t1 t2 i, zm_get t1 (zm_set t (next s) (table s)) = Some i -> zm_get t2 (zm_set t (next s) (table s)) = Some i -> t1 = t2).
    { intros t1 t2 i. rewrite !zm_get_set by auto. destruct (Z.eqb_spec t1 t), (Z.eqb_spec t2 t); intros A B; subst; auto.
      - injection A as <-. apply gd in B. lia.
      - injection B as <-. apply gd in A. lia.
      - eapply gc; eauto. }
    assert (ODL : forall t0 i, zm_get t0 (zm_set t (next s) (table s)) = Some i -> i < next s + 1).
    { intros t0 i. rewrite zm_get_set by auto. destruct (t0 =? t); [intros [= <-]; lia|]. intros A. apply gd in A. lia. }
    assert (TAB : forall m, In m (mounted s) -> zm_get (m_tree m) (zm_set t (next s) (table s)) = Some (m_id m)).
    { intros m Hm. rewrite zm_get_set by auto. destruct (Z.eqb_spec (m_tree m) t) as [E|_]; [now apply NT in E|auto]. }
    destruct k; cbn [fst].
    + constructor; cbn [table mounted next gone stored]; auto.
      * now apply zm_ok_set.
      * intros m [<-|Hm]; cbn [m_tree m_id]; [|auto]. rewrite zm_get_set by auto. now rewrite Z.eqb_refl.
      * cbn [map m_id]. constructor; [|exact ge]. intros X. apply in_map_iff in X. destruct X as (m & E & Hm). apply OLD in Hm. lia.
      * cbn [map m_path]. constructor; [|exact gf]. intros X. apply in_map_iff in X. destruct X as (m & E & Hm). now apply (F mp m).
      * intros m [<-|Hm]; cbn [m_tree]; [|auto]. intros X. apply in_gone in X. congruence.
      * intros m n [<-|Hm] Hn; cbn [m_tree].
        -- destruct Hn as [->|[->| ->]]; [exists (Atime a)|exists (RecordSize r)|exists (Mountpoint mp)];
           (split; [|split; reflexivity]); [rewrite <- Ta|rewrite <- Tr|rewrite <- Tm]; now apply told_stored.
        -- destruct (gh m n Hm Hn) as (p & T & R). exists p. split; [|exact R]. rewrite <- T. now apply told_stored.
    + constructor; cbn [table mounted next gone stored]; auto. now apply zm_ok_set.
  - (* unmount *)
    unfold unmount. destruct (existsb _ _); [exact G|].
    destruct (told s t NMountpoint) as [[| |mp| |]|] eqn:Tm; try exact G.
    destruct (kernel_unmount mp (mounted s)) as [l|] eqn:K; [|exact G]. destruct busy; [exact G|].
    apply kernel_split in K. destruct K as (a & m & b & El & -> & P & _).
    assert (Hm : In m (mounted s)) by (rewrite El; apply in_elt).
    assert (Et : m_tree m = t).
    { destruct (F mp m Tm Hm P) as (m' & Hm' & E'). destruct (g_told s G m' NMountpoint Hm') as (p & T & _ & U); [right; now right|].
      rewrite E', Tm in T. injection T as <-. cbn in U. rewrite (same_path s m m'); auto. congruence. }
    assert (IN : forall x, In x (a ++ b) -> In x (mounted s)).
    { intros x. rewrite El, !in_app_iff. cbn. tauto. }
    assert (NE : forall x, In x (a ++ b) -> m_tree x <> t).
    { intros x Hx E. assert (x = m) by (apply (same_tree s); auto; congruence). subst x.
      pose proof (g_nd s G) as ND. rewrite El in ND. now apply (nd_app_out m_id a m b m ND Hx). }
    destruct G as [ga gb gc gd ge gf gg gh]. constructor; cbn [fst table mounted next gone stored]; auto.
    + now apply zm_ok_del.
    + intros x Hx. rewrite zm_get_del by auto. destruct (Z.eqb_spec (m_tree x) t) as [E|_]; [now apply NE in E|auto].
    + intros t1 t2 i. rewrite !zm_get_del by auto. destruct (t1 =? t), (t2 =? t); try easy. apply gc.
    + intros t0 i. rewrite zm_get_del by auto. destruct (t0 =? t); [easy|]. apply gd.
    + rewrite El in ge. now apply nd_app_mid in ge.
    + rewrite El in gf. now apply nd_app_mid in gf.
    + intros x n Hx Hn. destruct (gh x n (IN x Hx) Hn) as (p & T & R). exists p. split; [|exact R]. rewrite <- T. now apply told_stored.
  - (* umount *)
    unfold umount. destruct (kernel_unmount path (mounted s)) as [l|] eqn:K; [|exact G].
    apply kernel_split in K. destruct K as (a & m & b & El & -> & P & _).
    assert (IN : forall x, In x (a ++ b) -> In x (mounted s)).
    { intros x. rewrite El, !in_app_iff. cbn. tauto. }
    destruct G as [ga gb gc gd ge gf gg gh]. constructor; cbn [fst table mounted next gone stored]; auto.
    + rewrite El in ge. now apply nd_app_mid in ge.
    + rewrite El in gf. now apply nd_app_mid in gf.
    + intros x n Hx Hn. destruct (gh x n (IN x Hx) Hn) as (p & T & R). exists p. split; [|exact R]. rewrite <- T. now apply told_stored.
  - (* destroy *)
    unfold destroy. destruct (existsb _ _); [exact G|]. destruct (zm_mem t (table s)) eqn:Z; [exact G|].
    destruct w; [|exact G]. destruct G as [ga gb gc gd ge gf gg gh].
    constructor; cbn [fst table mounted next gone stored]; auto.
    + intros m Hm [E|X]; [|now apply (gg m)]. apply zm_mem_false in Z. pose proof (gb m Hm) as Y. rewrite <- E in Y. congruence.
Qed.

Lemma good_run os : forall s, good s -> all_fair s os -> good (run s os).
Proof.
  induction os as [|o os IH]; intros s G; cbn [MountProp_Model.run all_fair]; [auto|].
  intros [F A]. apply IH; [now apply good_step|exact A].
Qed.

Lemma typed_put s t v : typed (stored s) -> typed (stored (put s t v)).
Proof.
  intros H t' n v'. cbn [put stored]. destruct ((t' =? t) && pname_eqb n (name_of v)) eqn:E; [|apply H].
  intros [= <-]. apply andb_true_iff in E. destruct E as [_ E]. apply eqb_pname in E. now symmetry.
Qed.

Lemma typed_unmounted s t v w : typed (stored s) -> typed (stored (fst (set_prop_unmounted s t v w))).
Proof.
  intros H. unfold set_prop_unmounted. destruct v; try destruct (strip_prefix _ _); try destruct w; cbn [fst]; auto; now apply typed_put.
Qed.

Lemma typed_step s o : typed (stored s) -> typed (stored (fst (step s o))).
Proof.
  intros H. destruct o as [t p w|t k|t busy|path|t w]; cbn [MountProp_Model.step].
  - unfold set_prop. destruct (existsb _ _); [exact H|]. destruct (upgrade s t) as [m|]; [|now apply typed_unmounted].
    unfold fs_set_prop. destruct (prop_inheritable p); try exact H; now apply typed_unmounted.
  - unfold mount. destruct (existsb _ _); [exact H|]. destruct (told s t NMountpoint) as [[| | | |]|]; try exact H.
    destruct (upgrade s t); [exact H|]. destruct (told s t NAtime) as [[| | | |]|]; try exact H.
    destruct (told s t NRecordSize) as [[| | | |]|]; try exact H. destruct k; exact H.
  - unfold unmount. destruct (existsb _ _); [exact H|]. destruct (told s t NMountpoint) as [[| | | |]|]; try exact H.
    destruct (kernel_unmount _ _); [|exact H]. destruct busy; exact H.
  - unfold umount. destruct (kernel_unmount _ _); exact H.
  - unfold destroy. destruct (existsb _ _); [exact H|]. destruct (zm_mem _ _); [exact H|]. destruct w; exact H.
Qed.

Lemma typed_run os : forall s, typed (stored s) -> typed (stored (run s os)).
Proof. induction os as [|o os IH]; intros s H; cbn [MountProp_Model.run]; [exact H|]. apply IH. now apply typed_step. Qed.

(** * The theorems *)

(** In every such history, whatever clients are told of a mounted file system is
    what it does. *)
Theorem C105_in_use : forall p os m n, all_fair (start p) os -> let s := run (start p) os in
  In m (mounted s) -> counts n -> exists v, told s (m_tree m) n = Some v /\ in_use m v.
Proof.
  intros p os m n F s Hm Hn. destruct (g_told s (good_run os _ (good_start p) F) m n Hm Hn) as (v & T & _ & U). eauto.
Qed.

(** Unmounting a mounted data set takes out its mount and no other.  If the kernel
    refuses, nothing changes. *)
Theorem C105_unmount : forall p os m busy, all_fair (start p) os -> let s := run (start p) os in
  In m (mounted s) -> let '(s', r) := step s (Unmount (m_tree m) busy) in
  if busy then r = Refused BUSY /\ s' = s
  else r = Done /\ (forall x, In x (mounted s') <-> In x (mounted s) /\ x <> m) /\ stored s' = stored s.
Proof.
  intros p os m busy F s Hm. pose proof (good_run os _ (good_start p) F) as G. fold s in G.
  cbn [MountProp_Model.step]. unfold unmount.
  destruct (existsb _ (gone s)) eqn:Eg; [apply in_gone in Eg; now apply (g_gone s G) in Eg|].
  destruct (g_told s G m NMountpoint Hm) as (v & T & Hv & U); [right; now right|].
  destruct v as [| |mp| |]; try discriminate Hv. cbn in U. rewrite T.
  destruct (kernel_unmount mp (mounted s)) as [l|] eqn:K.
  2:{ exfalso. now apply (proj1 (kernel_none mp (mounted s)) K m Hm). }
  destruct busy; [now split|]. split; [reflexivity|]. cbn [mounted stored]. split; [|reflexivity].
  apply kernel_split in K. destruct K as (a & m' & b & El & -> & P & _).
  assert (Hm' : In m' (mounted s)) by (rewrite El; apply in_elt).
  assert (m' = m) by (apply (same_path s); auto; congruence). subst m'.
  intros x. split.
  - intros Hx. split; [rewrite El; rewrite in_app_iff in *; cbn; tauto|]. intros ->.
    pose proof (g_nd s G) as ND. rewrite El in ND. now apply (nd_app_out m_id a m b m ND Hx).
  - intros [Hx Hne]. rewrite El in Hx. rewrite in_app_iff in *. cbn in Hx. destruct Hx as [?|[?|?]]; auto. congruence.
Qed.

(** Mounting is refused if and only if the data set is mounted (or does not exist, or the
    kernel refuses). *)
Theorem C105_mount : forall p os t k, typed p -> all_fair (start p) os -> let s := run (start p) os in
  ~ In t (gone s) -> told s t NMountpoint <> None -> told s t NAtime <> None -> told s t NRecordSize <> None ->
  let '(s', r) := step s (Mount t k) in
  (r = Refused BUSY <-> exists m, In m (mounted s) /\ m_tree m = t) /\
  (r = Refused BUSY \/ r = if k then Done else Refused EIO) /\
  (r = Done -> exists m, mounted s' = m :: mounted s /\ m_tree m = t /\
     forall n, counts n -> exists v, told s' t n = Some v /\ in_use m v) /\
  (r <> Done -> mounted s' = mounted s).
Proof.
  intros p os t k Ty0 F s Hg N1 N2 N3. pose proof (typed_run os (start p) Ty0) as Ty. fold s in Ty. pose proof (good_run os _ (good_start p) F) as G. fold s in G.
  assert (LT : forall f u n d lvl v src, get_prop_loop par (stored s) bld f u n d lvl = Some (v, src) -> name_of d = n -> name_of v = n).
  { induction f as [|f IH]; intros u n d lvl v src; cbn [get_prop_loop]; [easy|].
    destruct (stored s u n) as [q|] eqn:E; [intros [= <- _] _; now apply Ty in E|].
    destruct (par u); [|intros [= <- _]; auto]. destruct (lvl =? 255); [destruct bld; [|easy]|]; apply IH. }
  assert (T1 : exists mp, told s t NMountpoint = Some (Mountpoint mp)).
  { revert N1. unfold MountProp_Model.told, get_prop. cbn [name_inheritable]. unfold get_prop_configurable. cbn [default_value].
    destruct (get_prop_loop _ _ _ _ _ _ _ _) as [[v src]|] eqn:E; [|easy]. apply LT in E; [|reflexivity].
    destruct v; try discriminate E. destruct (derive_mountpoint _ _ _); [eauto|easy]. }
  assert (T2 : exists b, told s t NAtime = Some (Atime b)).
  { revert N2. unfold MountProp_Model.told, get_prop. cbn [name_inheritable]. unfold get_prop_configurable. cbn [default_value].
    destruct (get_prop_loop _ _ _ _ _ _ _ _) as [[v src]|] eqn:E; [|easy]. apply LT in E; [|reflexivity].
    destruct v; try discriminate E. eauto. }
  assert (T3 : exists b, told s t NRecordSize = Some (RecordSize b)).
  { revert N3. unfold MountProp_Model.told, get_prop. cbn [name_inheritable]. unfold get_prop_configurable. cbn [default_value].
    destruct (get_prop_loop _ _ _ _ _ _ _ _) as [[v src]|] eqn:E; [|easy]. apply LT in E; [|reflexivity].
    destruct v; try discriminate E. eauto. }
  destruct T1 as [mp T1], T2 as [a T2], T3 as [r T3].
  cbn [MountProp_Model.step]. unfold mount. destruct (existsb _ (gone s)) eqn:Eg; [now apply in_gone in Eg|].
  rewrite T1, T2, T3. destruct (upgrade s t) as [m|] eqn:U.
  - apply (proj1 (upgrade_some s t m G)) in U. split; [split; eauto|]. split; [now left|]. split; [easy|reflexivity].
  - pose proof (upgrade_none s t G U) as NT.
    assert (X : ~ exists m, In m (mounted s) /\ m_tree m = t) by (intros (m & A & B); now apply (NT m)).
    destruct k.
    + split; [split; [easy|intros; contradiction]|]. split; [now right|]. split; [|easy].
      intros _. eexists. split; [reflexivity|]. split; [reflexivity|].
      intros n [->|[->| ->]]; [exists (Atime a)|exists (RecordSize r)|exists (Mountpoint mp)];
      (split; [|reflexivity]); [rewrite <- T2|rewrite <- T3|rewrite <- T1]; now apply told_stored.
    + split; [split; [easy|intros; contradiction]|]. split; [now right|]. split; [easy|reflexivity].
Qed.

(** No data set is destroyed while it is mounted. *)
Theorem C105_destroy : forall p os m, all_fair (start p) os -> let s := run (start p) os in
  In m (mounted s) -> ~ In (m_tree m) (gone s) /\ forall w, step s (Destroy (m_tree m) w) = (s, Refused BUSY).
Proof.
  intros p os m F s Hm. pose proof (good_run os _ (good_start p) F) as G. fold s in G.
  pose proof (g_gone s G m Hm) as Hg. split; [exact Hg|]. intros w. cbn [MountProp_Model.step]. unfold destroy.
  destruct (existsb _ (gone s)) eqn:Eg; [now apply in_gone in Eg|].
  unfold zm_mem. now rewrite (g_tab s G m Hm).
Qed.

(** A property that is set on a data set above a mounted one, and inherited by it,
    is told but not used: the mounted file system stays as it was. *)

(** A property that is set on a data set above a mounted one, and inherited by it,
    is told but not used: the mounted file system stays as it was. *)
Theorem C105_inherited_ignored : forall p os m a k v, all_fair (start p) os -> let s := run (start p) os in
  In m (mounted s) -> ~ In a (gone s) -> above par (m_tree m) (S k) a -> (S k <= 255)%nat -> (S k < fuel)%nat ->
  (name_of v = NAtime \/ name_of v = NRecordSize) ->
  (forall j b, (j <= k)%nat -> above par (m_tree m) j b -> b <> a /\ stored s b (name_of v) = None) ->
  let '(s', r) := step s (Set_ a v true) in
  r = Done /\ told s' (m_tree m) (name_of v) = Some v /\ In m (mounted s').
Proof.
  intros p os m a k v F s Hm Hg U Hk Hf Hv N. pose proof (good_run os _ (good_start p) F) as G. fold s in G.
  assert (PI : prop_inheritable v = v) by (destruct v; cbn in Hv; destruct Hv; try discriminate; reflexivity).
  assert (Hne : m_tree m <> a) by (apply (N 0%nat); [lia|apply above_here]).
  assert (ST : forall s1, stored s1 = stored s -> told (put s1 a v) (m_tree m) (name_of v) = Some v).
  { intros s1 E1. apply told_found with (k := S k) (a := a); auto; cbn [put stored].
    - rewrite Z.eqb_refl. assert (X : pname_eqb (name_of v) (name_of v) = true) by now apply eqb_pname. now rewrite X.
    - intros j b Hj Ub. rewrite E1. destruct (N j b ltac:(lia) Ub) as [Nb Ns].
      destruct (Z.eqb_spec b a); [contradiction|exact Ns]. }
  cbn [MountProp_Model.step]. unfold set_prop. rewrite PI. destruct (existsb _ (gone s)) eqn:Eg; [now apply in_gone in Eg|].
  destruct (upgrade s a) as [m'|] eqn:Up.
  - apply (proj1 (upgrade_some s a m' G)) in Up. destruct Up as [Hm' E'].
    assert (Hid : m_id m <> m_id m').
    { intros X. apply Hne. rewrite <- E'. f_equal. now apply (same_id s). }
    assert (IN : forall f, In m (mounted (remember s (m_id m') f))).
    { intros f. cbn [remember mounted]. apply in_map_iff. exists m. split; [|exact Hm].
      destruct (Z.eqb_spec (m_id m) (m_id m')); [contradiction|reflexivity]. }
    rewrite <- E' in ST. destruct v; cbn in Hv; destruct Hv as [Hv|Hv]; try discriminate Hv; cbn [fs_set_prop set_prop_unmounted];
    (split; [reflexivity|]; split; [apply ST; reflexivity|apply IN]).
  - destruct v; cbn in Hv; destruct Hv as [Hv|Hv]; try discriminate Hv; cbn [set_prop_unmounted];
    (split; [reflexivity|]; split; [apply ST; reflexivity|exact Hm]).
Qed.

(** Setting the mountpoint of a mounted file system makes the daemon's task panic,
    and changes nothing. *)
Theorem C105_mountpoint_panics : forall p os m mp w, all_fair (start p) os -> let s := run (start p) os in
  In m (mounted s) -> step s (Set_ (m_tree m) (Mountpoint mp) w) = (s, Panicked).
Proof.
  intros p os m mp w F s Hm. pose proof (good_run os _ (good_start p) F) as G. fold s in G.
  cbn [MountProp_Model.step]. unfold set_prop. cbn [prop_inheritable].
  destruct (existsb _ (gone s)) eqn:Eg; [apply in_gone in Eg; now apply (g_gone s G) in Eg|].
  rewrite (proj2 (upgrade_some s (m_tree m) m G)) by auto. reflexivity.
Qed.

(** A property that cannot be written is used by the mounted file system although
    the client is told of the error and of the old value. *)
Theorem C105_failed_set : forall p os m b, all_fair (start p) os -> let s := run (start p) os in
  In m (mounted s) -> let '(s', r) := step s (Set_ (m_tree m) (Atime b) false) in
  r = Refused EIO /\ (forall t n, told s' t n = told s t n) /\
  exists m', In m' (mounted s') /\ m_tree m' = m_tree m /\ m_path m' = m_path m /\ in_use m' (Atime b).
Proof.
  intros p os m b F s Hm. pose proof (good_run os _ (good_start p) F) as G. fold s in G.
  cbn [MountProp_Model.step]. unfold set_prop. cbn [prop_inheritable].
  destruct (existsb _ (gone s)) eqn:Eg; [apply in_gone in Eg; now apply (g_gone s G) in Eg|].
  rewrite (proj2 (upgrade_some s (m_tree m) m G)) by auto. cbn [fs_set_prop set_prop_unmounted].
  split; [reflexivity|]. split; [intros; now apply told_stored|].
  eexists. split; [cbn [remember mounted]; apply in_map_iff; exists m; split; [rewrite Z.eqb_refl; reflexivity|exact Hm]|].
  repeat split.
Qed.
End C105.

(** * Cases *)

(** A pool with two data sets. *)
Definition two (t : Z) : option Z := if t =? 0 then None else Some 0.
Definition names (t : Z) : text := if t =? 1 then str "tank/a" else if t =? 2 then str "tank/b" else str "tank".
Definition none (t : Z) (n : pname) : option property := None.
Notation go := (run two names Release 9 (start none)).
Notation ask := (told two names Release 9).
Notation fair_ := (all_fair two names Release 9 (start none)).

Example C105_ex : let os := [Set_ 0 (Mountpoint (str "/home")) true; Set_ 0 (RecordSize 12) true; Mount 1 true; Mount 2 true;
                             Set_ 1 (Atime false) true] in
  fair_ os /\
  mounted (go os) = [Mnt 1 2 (str "/home/b") true 12; Mnt 0 1 (str "/home/a") false 12] /\
  mounted (go (os ++ [Unmount 1 false])) = [Mnt 1 2 (str "/home/b") true 12].
Proof.
  cbn [app]. split; [|split; reflexivity].
  assert (N : forall k, ~ above two 1 (S k) 1 /\ ~ above two 2 (S k) 1).
  { assert (Z0 : forall j x, above two 0 j x -> x = 0) by (intros j x H; inversion H; subst; [reflexivity|discriminate]).
    intros k; split; intros H; inversion H; subst; cbn in *; match goal with E : Some _ = Some _ |- _ => injection E as <- end;
    match goal with E : above two 0 _ 1 |- _ => apply Z0 in E; discriminate end. }
  cbn [all_fair]. split; [now split|]. split; [now split|]. split; [now intros mp m _ []|].
  split; [vm_compute; intros mp m [= <-] [<-|[]]; discriminate|]. split; [|exact I].
  split; [|discriminate]. intros m k Hm. vm_compute in Hm. destruct Hm as [<-|[<-|[]]]; apply N.
Qed.

(** The property set on the parent is told but not used. *)
Theorem C105_in_use_refuted : exists os m v, let s := go os in
  In m (mounted s) /\ ask s (m_tree m) NAtime = Some v /\ ~ in_use m v.
Proof.
  exists [Mount 1 true; Set_ 0 (Atime false) true], (Mnt 0 1 (str "/tank/a") true 17), (Atime false).
  split; [now left|]. split; [reflexivity|]. discriminate.
Qed.

(** A data set cannot be unmounted after the mountpoint of its parent was changed. *)
Theorem C105_unmount_refuted : exists os m, let s := go os in
  In m (mounted s) /\ step two names Release 9 s (Unmount (m_tree m) false) = (s, Refused INVAL).
Proof.
  exists [Mount 1 true; Set_ 0 (Mountpoint (str "/mnt")) true], (Mnt 0 1 (str "/tank/a") true 17).
  split; [now left|reflexivity].
Qed.

(** Unmounting takes out another file system if that was mounted later at the same
    place.  The one that is left, though mounted, can then be destroyed; or mounted a
    second time. *)
Theorem C105_destroy_refuted : exists os m, let s := go os in
  In m (mounted s) /\
  In m (mounted (go (os ++ [Unmount (m_tree m) false]))) /\
  (let s' := go (os ++ [Unmount (m_tree m) false; Destroy (m_tree m) true]) in In m (mounted s') /\ In (m_tree m) (gone s')) /\
  (exists m', m' <> m /\ m_tree m' = m_tree m /\
     let s' := go (os ++ [Unmount (m_tree m) false; Mount (m_tree m) true]) in In m (mounted s') /\ In m' (mounted s')).
Proof.
  exists [Set_ 1 (Mountpoint (str "/x")) true; Set_ 2 (Mountpoint (str "/x")) true; Mount 1 true; Mount 2 true], (Mnt 0 1 (str "/x") true 17).
  split; [now (right; left)|]. split; [now left|]. split; [split; now left|].
  exists (Mnt 2 1 (str "/x") true 17). split; [easy|]. split; [reflexivity|]. split; [right; now left|now left].
Qed.

(** Unmounting a data set that is not mounted takes out another one. *)
Theorem C105_not_mounted_refuted : exists os m t, let s := go os in
  mounted s = [m] /\ m_tree m <> t /\ snd (step two names Release 9 s (Unmount t false)) = Done /\
  mounted (fst (step two names Release 9 s (Unmount t false))) = [].
Proof.
  exists [Set_ 2 (Mountpoint (str "/tank/a")) true; Mount 1 true], (Mnt 0 1 (str "/tank/a") true 17), 2.
  repeat split. discriminate.
Qed.

Print Assumptions C105_in_use.
Print Assumptions C105_unmount.
Print Assumptions C105_mount.
Print Assumptions C105_destroy.
Print Assumptions C105_inherited_ignored.
Print Assumptions C105_mountpoint_panics.
Print Assumptions C105_failed_set.
Print Assumptions C105_in_use_refuted.
Print Assumptions C105_unmount_refuted.
Print Assumptions C105_destroy_refuted.
Print Assumptions C105_not_mounted_refuted.
