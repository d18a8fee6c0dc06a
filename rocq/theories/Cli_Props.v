(** C108: what the commands that list data sets and properties print. *)
From Coq Require Import String.
From Verif Require Import Common FSM_Model Prop_Model Rpc_Model Cli_Model.
From Coq Require Import List Sorting.Sorted Sorting.Permutation.
Import ListNotations.
Open Scope Z_scope.

(** * Specification *)

(** where a value comes from, as the user speaks of it *)
Inductive kind := KNone | KDefault | KLocal | KInherited.
Definition kind_of (s : psource) : kind :=
  match s with SNone => KNone | SDefault => KDefault | SSet i => if i =? 0 then KLocal else KInherited end.
Definition word (k : kind) : text :=
  match k with KNone => str "none" | KDefault => str "default" | KLocal => str "local" | KInherited => str "inherited" end.
Definition source_ok (s : psource) : Prop := match s with SSet i => 0 <= i | _ => True end.

(** [shown] and [asked] say the same, [val] being the properties of all data sets, of which [names d k] gives those
    listed for [d] and depth [k] *)
Definition faithful (lst : listing) (val : text -> pname -> property * psource) (names : text -> Z -> list text) : Prop :=
  forall d ps k l, lst d ps k = COk l ->
    map di_name l = names d k /\ Forall (fun x => di_props x = map (val (di_name x)) ps) l.

(** the order of bytes; one text that begins another precedes it *)
Inductive tle : text -> text -> Prop :=
| tle_nil b : tle [] b
| tle_lt x y a b : x < y -> tle (x :: a) (y :: b)
| tle_eq x a b : tle a b -> tle (x :: a) (x :: b).

(** the lines about a data set *)
Definition cell (val : text -> pname -> property * psource) (name : text) (n : pname) (f : gfield) : text :=
  match f with
  | GName => name
  | GProperty => show_name (name_of (fst (val name n)))
  | GValue => show_prop (fst (val name n))
  | GSource => show_source (snd (val name n))
  end.
Definition lines (val : text -> pname -> property * psource) (fields : list gfield) (kinds : list kind) (ps : list pname) (name : text) : list (list text) :=
  flat_map (fun n => if existsb (fun k => match k, kind_of (snd (val name n)) with
                                          | KNone, KNone | KDefault, KDefault | KLocal, KLocal | KInherited, KInherited => true
                                          | _, _ => false end) kinds
                     then [map (cell val name n) fields] else []) ps.

(** * Order *)

Lemma text_cmp_le a b : text_cmp a b <> Gt <-> tle a b.
Proof.
  revert b; induction a as [|x a IH]; intros [|y b]; cbn [text_cmp].
  - split; [constructor|discriminate].
  - split; [constructor|discriminate].
  - split; [congruence|]. intros H; inversion H.
  - destruct (Z.compare_spec x y) as [->|L|G].
    + rewrite IH. split; [apply tle_eq|]. intros H; inversion H; subst; [lia|assumption].
    + split; [intros _; now apply tle_lt|discriminate].
    + split; [congruence|]. intros H; inversion H; subst; lia.
Qed.
Lemma tle_refl a : tle a a.
Proof. induction a; [constructor|now apply tle_eq]. Qed.
Lemma tle_trans a b c : tle a b -> tle b c -> tle a c.
Proof.
  intros H. revert c. induction H as [b|x y a b L|x a b H IH]; intros c K.
  - constructor.
  - inversion K; subst; apply tle_lt; lia.
  - inversion K; subst; [apply tle_lt; lia|apply tle_eq; auto].
Qed.
Lemma tle_total a b : tle a b \/ tle b a.
Proof.
  revert b; induction a as [|x a IH]; intros [|y b]; try (left; constructor; fail); try (right; constructor; fail).
  destruct (Z.lt_trichotomy x y) as [L|[->|G]]; [left; now apply tle_lt| |right; now apply tle_lt].
  destruct (IH b); [left|right]; now apply tle_eq.
Qed.
Lemma tle_antisym a b : tle a b -> tle b a -> a = b.
Proof.
  induction 1 as [b|x y a b L|x a b H IH]; intros K; inversion K; subst; try lia; [reflexivity|]. f_equal. auto.
Qed.

(** a sort has a result *)
Lemma sort_exists {A} (R : A -> A -> Prop) (Tot : forall x y, R x y \/ R y x) (Tr : forall x y z, R x y -> R y z -> R x z) (l : list A) :
  exists l', Permutation l l' /\ StronglySorted R l'.
Proof.
  assert (I : forall x l, StronglySorted R l -> exists l', Permutation (x :: l) l' /\ StronglySorted R l').
  { intros x. induction 1 as [|y m S IH F]; [exists [x]; split; [auto|repeat constructor]|]. destruct (Tot x y) as [H|H].
    - exists (x :: y :: m). split; [auto|]. constructor; [constructor; auto|]. constructor; [exact H|]. eapply Forall_impl; [|exact F]. cbn. eauto.
    - destruct IH as (l' & P & S'). exists (y :: l'). split; [rewrite perm_swap; now constructor|]. constructor; [exact S'|].
      eapply Permutation_Forall; [exact P|]. constructor; [exact H|exact F]. }
  induction l as [|x l (l' & P & S)]; [exists []; split; constructor|]. destruct (I x l' S) as (m & Q & T). exists m. split; [|exact T].
  rewrite P. exact Q.
Qed.

(** * fs get *)

Definition source_of (k : kind) : psource := match k with KNone => SNone | KDefault => SDefault | KLocal => SSet 0 | KInherited => SSet 1 end.
Lemma parse_word k : parse_source (word k) = Some (source_of k).
Proof. destruct k; reflexivity. Qed.
Lemma selected ks s : source_ok s -> existsb (psource_eqb (if is_inherited s then SSet 1 else s)) (map source_of ks) =
  existsb (fun k => match k, kind_of s with KNone, KNone | KDefault, KDefault | KLocal, KLocal | KInherited, KInherited => true | _, _ => false end) ks.
Proof.
  intros O. induction ks as [|k ks IH]; [reflexivity|]. cbn [map existsb]. rewrite IH. f_equal.
  destruct s as [| |i]; cbn [source_ok] in O; unfold is_inherited, kind_of; [destruct k; reflexivity|destruct k; reflexivity|].
  destruct (Z.ltb_spec 0 i), (Z.eqb_spec i 0); try lia; subst; destruct k; reflexivity.
Qed.

(** the words that -s takes select what they say *)
Theorem C108_source_words k : exists s, parse_source (word k) = Some s /\
  forall s', source_ok s' -> existsb (psource_eqb (if is_inherited s' then SSet 1 else s')) [s] = true <-> kind_of s' = k.
Proof.
  exists (source_of k). split; [apply parse_word|]. intros s' O. change [source_of k] with (map source_of [k]). rewrite (selected [k] s' O). cbn [existsb]. rewrite orb_false_r.
  destruct k, (kind_of s'); split; congruence.
Qed.

Lemma collect_names lst val names ds ps k l : faithful lst val names -> collect lst ds ps k = COk l ->
  map di_name l = flat_map (fun d => names d k) ds /\ Forall (fun x => di_props x = map (val (di_name x)) ps) l.
Proof.
  intros F. revert l; induction ds as [|d ds IH]; intros l E; cbn [collect] in E.
  - injection E as <-. split; [reflexivity|constructor].
  - destruct (lst d ps k) as [a|] eqn:A; [|discriminate]. destruct (collect lst ds ps k) as [m|]; [|discriminate]. injection E as <-.
    destruct (F _ _ _ _ A) as [N P]. destruct (IH _ eq_refl) as [N2 P2]. rewrite map_app, N, N2. split; [reflexivity|]. now apply Forall_app.
Qed.

Lemma filter_map_flat {A B C} (f : A -> B) (p : B -> bool) (g : B -> C) l :
  map g (filter p (map f l)) = flat_map (fun a => if p (f a) then [g (f a)] else []) l.
Proof. induction l as [|a l IH]; [reflexivity|]. cbn [map filter flat_map]. destruct (p (f a)); cbn [map app]; now rewrite IH. Qed.

Lemma rows_lines val fields ks ps x : (forall n, source_ok (snd (val (di_name x) n))) -> di_props x = map (val (di_name x)) ps ->
  get_rows fields [retain (map source_of ks) x] = lines val fields ks ps (di_name x).
Proof.
  intros O E. unfold get_rows. cbn [flat_map]. rewrite app_nil_r. unfold retain. cbn [di_props]. rewrite E, filter_map_flat.
  unfold lines. apply flat_map_ext. intros n. rewrite (selected ks _ (O n)). destruct (existsb _ _); [|reflexivity]. f_equal.
Qed.

(** The lines of every data set listed, in the order of their names, each property asked for if it comes from where
    asked for. *)
Theorem C108_get lst val names fields ks r dp ps ds out : faithful lst val names -> (forall d n, source_ok (snd (val d n))) ->
  get_cmd lst fields (map source_of ks) r dp ps ds (COk out) ->
  exists all, Permutation (flat_map (fun d => names d (match dp with Some k => k | None => if r then USIZE_MAX else 0 end)) ds) all /\
    StronglySorted tle all /\ out = print_rows (flat_map (lines val fields ks ps) all).
Proof.
  intros F O C. unfold get_cmd in C. fold (depth_of dp r). destruct (collect lst ds ps (depth_of dp r)) as [l|] eqn:E; [|discriminate].
  destruct C as (all & [P S] & [= ->]). destruct (collect_names _ _ _ _ _ _ _ F E) as [N Q]. exists (map di_name all). rewrite <- N.
  split; [|split].
  - apply (Permutation_map di_name) in P. rewrite map_map in P. exact P.
  - clear - S. induction S as [|x m S IH G]; [constructor|]. cbn [map]. constructor; [exact IH|]. apply Forall_map. eapply Forall_impl; [|exact G].
    cbn. intros y. apply text_cmp_le.
  - f_equal. assert (Q' : Forall (fun y => exists x, y = retain (map source_of ks) x /\ di_props x = map (val (di_name x)) ps) all).
    { eapply Permutation_Forall; [exact P|]. apply Forall_map. eapply Forall_impl; [|exact Q]. cbn. intros x H. eauto. }
    clear - Q' O. induction Q' as [|y m (x & -> & H) Q' IH]; [reflexivity|]. change (get_rows fields (retain (map source_of ks) x :: m)) with
      (map (fun z => map (get_cell (retain (map source_of ks) x) z) fields) (di_props (retain (map source_of ks) x)) ++ get_rows fields m).
    rewrite IH. cbn [map flat_map]. f_equal. change (di_name (retain (map source_of ks) x)) with (di_name x). rewrite <- (rows_lines val fields ks ps x (O _) H). unfold get_rows. cbn [flat_map]. now rewrite app_nil_r.
Qed.

(** with neither -r nor -d only the data sets that were given *)
Theorem C108_given_only lst val names fields ks ps ds out : faithful lst val names -> (forall d n, source_ok (snd (val d n))) ->
  (forall d, names d 0 = [d]) -> get_cmd lst fields (map source_of ks) false None ps ds (COk out) ->
  exists all, Permutation ds all /\ StronglySorted tle all /\ out = print_rows (flat_map (lines val fields ks ps) all).
Proof.
  intros F O N C. destruct (C108_get _ _ _ _ _ _ _ _ _ _ F O C) as (all & P & S & E). exists all. split; [|auto]. rewrite <- P. clear - N.
  induction ds as [|d ds IH]; [reflexivity|]. cbn [flat_map]. rewrite N. cbn [app]. now rewrite <- IH.
Qed.

(** it ends: with an error exactly if one of the listings does *)
Theorem C108_get_ends lst fields srcs r dp ps ds : exists out, get_cmd lst fields srcs r dp ps ds out /\
  forall e, (out = CErr e -> exists d k, In d ds /\ lst d ps k = CErr e) /\ (forall d, In d ds -> lst d ps (depth_of dp r) = CErr e -> exists e', out = CErr e').
Proof.
  unfold get_cmd. set (k := depth_of dp r).
  assert (X : match collect lst ds ps k with
              | CErr e => exists d, In d ds /\ lst d ps k = CErr e
              | COk _ => forall d, In d ds -> forall e, lst d ps k <> CErr e end).
  { induction ds as [|d ds IH]; cbn [collect]; [intros d []|]. destruct (lst d ps k) as [a|e] eqn:A; [|exists d; split; [now left|exact A]].
    destruct (collect lst ds ps k) as [m|e].
    - intros d' [<-|I] e; [congruence|now apply IH].
    - destruct IH as (d' & I & E). exists d'. split; [now right|exact E]. }
  destruct (collect lst ds ps k) as [l|e0].
  - destruct (sort_exists (fun x y : dsinfo => text_cmp (di_name x) (di_name y) <> Gt)) with (l := map (retain srcs) l) as (all & P & S).
    + intros x y. rewrite !text_cmp_le. apply tle_total.
    + intros x y z. rewrite !text_cmp_le. apply tle_trans.
    + eexists. split; [exists all; split; [split; [exact P|exact S]|reflexivity]|]. intros e. split; [discriminate|]. intros d I E. destruct (X d I e E).
  - exists (CErr e0). split; [reflexivity|]. intros e. split; [intros [= <-]; destruct X as (d & I & E); eauto|]. eauto.
Qed.

(** A data set that is below two of those given is printed as often as it is listed. *)
Theorem C108_twice_refuted lst val names fields ks ps d c out : faithful lst val names -> (forall d n, source_ok (snd (val d n))) ->
  In c (names d USIZE_MAX) -> In c (names c USIZE_MAX) -> get_cmd lst fields (map source_of ks) true None ps [d; c] (COk out) ->
  exists all, out = print_rows (flat_map (lines val fields ks ps) all) /\ ~ NoDup all.
Proof.
  intros F O I1 I2 C. destruct (C108_get _ _ _ _ _ _ _ _ _ _ F O C) as (all & P & S & E). exists all. split; [exact E|]. intros N.
  apply (Permutation_NoDup (Permutation_sym P)) in N. cbn [flat_map] in N. rewrite app_nil_r in N.
  apply in_split in I1. destruct I1 as (a & b & Q). rewrite Q, <- app_assoc in N. cbn [app] in N. apply NoDup_remove_2 in N. apply N.
  apply in_or_app. right. apply in_or_app. now right.
Qed.

(** * Reading the output *)

Definition clean (c : text) : Prop := Forall (fun x => x <> TAB /\ x <> NEWLINE) c.

Lemma split_eq {A} (P : A -> Prop) (a b : list A) x y r s : Forall P a -> Forall P b -> ~ P x -> ~ P y -> a ++ x :: r = b ++ y :: s -> a = b /\ x = y /\ r = s.
Proof.
  intros Fa. revert b. induction Fa as [|u a U Fa IH]; intros [|v b] Fb X Y E; cbn [app] in E.
  - injection E as -> ->. auto.
  - injection E as -> _. inversion Fb; contradiction.
  - injection E as <- _. contradiction.
  - injection E as <- E. inversion Fb; subst. destruct (IH b) as (-> & -> & ->); auto.
Qed.

Lemma join_cons c d r : join (c :: d :: r) = c ++ TAB :: join (d :: r).
Proof. reflexivity. Qed.
Lemma line_inj : forall r1 r2 s t, r1 <> [] -> r2 <> [] -> Forall clean r1 -> Forall clean r2 ->
  (join r1 ++ [NEWLINE]) ++ s = (join r2 ++ [NEWLINE]) ++ t -> r1 = r2 /\ s = t.
Proof.
  assert (T : ~ (TAB <> TAB /\ TAB <> NEWLINE)) by tauto. assert (N : ~ (NEWLINE <> TAB /\ NEWLINE <> NEWLINE)) by tauto.
  induction r1 as [|c r1 IH]; intros [|d r2] s t N1 N2 F1 F2 E; try congruence. inversion F1 as [|? ? C1 F1']; subst. inversion F2 as [|? ? C2 F2']; subst.
  destruct r1 as [|c' r1], r2 as [|d' r2]; rewrite ?join_cons in E; cbn [join] in E; rewrite <- ?app_assoc in E; cbn [app] in E; rewrite <- ?app_assoc in E; cbn [app] in E.
  - destruct (split_eq _ _ _ _ _ _ _ C1 C2 N N E) as (-> & _ & ->). auto.
  - destruct (split_eq _ _ _ _ _ _ _ C1 C2 N T E) as (_ & Q & _). discriminate Q.
  - destruct (split_eq _ _ _ _ _ _ _ C1 C2 T N E) as (_ & Q & _). discriminate Q.
  - destruct (split_eq _ _ _ _ _ _ _ C1 C2 T T E) as (-> & _ & E').
    destruct (IH (d' :: r2) s t ltac:(discriminate) ltac:(discriminate) F1' F2') as [-> ->]; [|auto].
    rewrite <- !app_assoc. exact E'.
Qed.

(** A script can tell the cells apart, if no name and no value has a tabulator or the end of a line in it. *)
Theorem C108_readable r1 r2 : Forall (fun r => r <> [] /\ Forall clean r) r1 -> Forall (fun r => r <> [] /\ Forall clean r) r2 ->
  print_rows r1 = print_rows r2 -> r1 = r2.
Proof.
  revert r2; induction r1 as [|a r1 IH]; intros [|b r2] F1 F2 E; unfold print_rows in E; cbn [flat_map] in E.
  - reflexivity.
  - destruct (join b); discriminate.
  - destruct (join a); discriminate.
  - inversion F1 as [|? ? [A1 A2] F1']; subst. inversion F2 as [|? ? [B1 B2] F2']; subst.
    destruct (line_inj _ _ _ _ A1 B1 A2 B2 E) as [-> E']. f_equal. apply IH; auto.
Qed.

(** Otherwise it cannot: any mountpoint can have them in it. *)
Theorem C108_readable_refuted : exists v1 v2, v1 <> v2 /\
  print_rows (lines (fun _ _ => (Mountpoint v1, SSet 0)) [GName; GValue] [KLocal] [NMountpoint] (str "p")) =
  print_rows (lines (fun _ _ => (Mountpoint v2, SSet 0)) [GName; GValue] [KLocal] [NMountpoint; NMountpoint] (str "p")).
Proof. exists (str "/a" ++ [NEWLINE] ++ str "p" ++ [TAB] ++ str "/a"), (str "/a"). split; [discriminate|reflexivity]. Qed.

(** The property column does not say what was asked for: the base mountpoint is always called mountpoint. *)
Theorem C108_property_column_refuted par props bld fuel d t p s :
  (forall u n q, props u n = Some q -> name_of q = n) ->
  get_prop par props bld fuel d t NBaseMountpoint = Some (p, s) -> get_cell (mkdi d [(p, s)] 0) (p, s) GProperty = str "mountpoint".
Proof.
  intros H E. unfold get_prop in E. cbn [name_inheritable] in E. unfold get_prop_configurable in E. cbn [default_value] in E.
  destruct (get_prop_loop _ _ _ _ _ _ _ _) as [[q src]|] eqn:L; [|discriminate].
  assert (Q : name_of q = NBaseMountpoint).
  { clear E. revert L. generalize 0 at 1. revert t. induction fuel as [|fu IH]; intros t lvl L; [discriminate|]. cbn [get_prop_loop] in L.
    destruct (props t NBaseMountpoint) eqn:P; [injection L as <- _; eapply H; eauto|]. destruct (par t); [|injection L as <- _; reflexivity].
    destruct (lvl =? 255); [destruct bld; [|discriminate]|]; eapply IH; eauto. }
  destruct q; try discriminate Q. injection E as <- _. reflexivity.
Qed.

(** * fs list *)

Definition column (val : text -> pname -> property * psource) (name : text) (n : pname) : property := fst (val name n).
(** off before on, texts in the order of their bytes, sizes by size *)
Definition plt (p q : property) : Prop :=
  match p, q with
  | Atime a, Atime b => a = false /\ b = true
  | BaseMountpoint a, BaseMountpoint b | Mountpoint a, Mountpoint b | Name a, Name b => tle a b /\ a <> b
  | RecordSize a, RecordSize b => a < b
  | _, _ => name_of p <> name_of q
  end.
(** in order of the first of the properties [ns] in which they differ *)
Fixpoint before (val : text -> pname -> property * psource) (ns : list pname) (a b : text) : Prop :=
  match ns with
  | [] => True
  | n :: r => plt (column val a n) (column val b n) \/ (column val a n = column val b n /\ before val r a b)
  end.

Lemma text_cmp_eq a b : text_cmp a b = Eq -> a = b.
Proof.
  revert b; induction a as [|x a IH]; intros [|y b]; cbn [text_cmp]; try discriminate; [reflexivity|].
  destruct (Z.compare_spec x y); try discriminate. intros E. subst. f_equal. auto.
Qed.
Lemma prop_cmp_eq p q : prop_cmp p q = Eq -> p = q.
Proof.
  destruct p, q; cbn [prop_cmp rank]; try discriminate; intros E; try (apply text_cmp_eq in E; congruence).
  - apply Z.compare_eq in E. destruct b, b0; cbn in E; congruence.
  - apply Z.compare_eq in E. congruence.
Qed.

Lemma prop_cmp_lt p q : prop_cmp p q = Lt -> plt p q.
Proof.
  assert (T : forall a b, text_cmp a b = Lt -> tle a b /\ a <> b).
  { intros a b E. split; [apply text_cmp_le; congruence|]. intros <-. revert E. clear. induction a as [|x a IH]; cbn [text_cmp]; [discriminate|].
    rewrite Z.compare_refl. exact IH. }
  destruct p, q; cbn [prop_cmp rank plt name_of]; try (intros _; discriminate); try discriminate; auto.
  destruct b, b0; cbn; try discriminate; auto.
Qed.

Lemma pname_eqb_eq a b : pname_eqb a b = true <-> a = b.
Proof. destruct a, b; cbn; split; congruence. Qed.
Lemma position_spec n l i : position n l = Some i -> nth_error l i = Some n.
Proof.
  revert i; induction l as [|x l IH]; intros i E; [discriminate|]. cbn [position] in E. destruct (pname_eqb n x) eqn:Q.
  - injection E as <-. apply pname_eqb_eq in Q. subst. reflexivity.
  - destruct (position n l) as [j|]; [|discriminate]. injection E as <-. cbn. auto.
Qed.
Lemma position_none n l : position n l = None <-> ~ In n l.
Proof.
  induction l as [|x l IH]; cbn [position In]; [tauto|]. destruct (pname_eqb n x) eqn:Q.
  - apply pname_eqb_eq in Q. subst. split; [discriminate|tauto].
  - assert (x <> n) by (intros <-; destruct x; discriminate). destruct (position n l); cbn [option_map]; [split; [discriminate|]|split; auto].
    + intros N. exfalso. assert (Some n0 = None) by (apply IH; tauto). discriminate.
    + intros _ [E|I]; [congruence|]. now apply (proj1 IH eq_refl).
Qed.

Lemma cmp_by_before val ps sort idx x y : sort_indices sort ps = Some idx ->
  di_props x = map (val (di_name x)) ps -> di_props y = map (val (di_name y)) ps ->
  exists c, cmp_by idx x y = Some c /\ (c <> Gt -> before val sort (di_name x) (di_name y)).
Proof.
  intros S X Y. revert idx S. induction sort as [|n sort IH]; intros idx S; cbn [sort_indices] in S.
  - injection S as <-. exists Eq. cbn. auto.
  - destruct (position n ps) as [i|] eqn:P; [|discriminate]. destruct (sort_indices sort ps) as [idx'|]; [|discriminate]. injection S as <-.
    apply position_spec in P. destruct (IH _ eq_refl) as (c & E & B). cbn [cmp_by before]. rewrite X, Y, !(map_nth_error _ _ _ P). cbn [obind]. unfold column.
    destruct (prop_cmp _ _) eqn:Q.
    + exists c. split; [exact E|]. intros G. right. split; [now apply prop_cmp_eq|auto].
    + exists Lt. split; [reflexivity|]. intros _. left. now apply prop_cmp_lt.
    + exists Gt. split; [reflexivity|]. congruence.
Qed.

(** One line for every data set listed, with the values of the properties asked for in the order asked for, sorted;
    it does not panic. *)
Theorem C108_list lst val names sort r dp ps ds out : faithful lst val names -> (forall n, In n sort -> In n ps) ->
  list_cmd lst sort r dp ps ds out ->
  exists res, out = Some res /\ forall txt, res = COk txt ->
  exists all, Permutation (flat_map (fun d => names d (match dp with Some k => k | None => if r then USIZE_MAX else 0 end)) ds) all /\
    StronglySorted (before val sort) all /\ txt = print_rows (map (fun d => map (fun n => show_prop (fst (val d n))) ps) all).
Proof.
  intros F Sub C. unfold list_cmd in C. fold (depth_of dp r). destruct (sort_indices sort ps) as [idx|] eqn:Si.
  2: { exfalso. revert Sub Si. clear. induction sort as [|n sort IH]; intros Sub Si; [discriminate|]. cbn [sort_indices] in Si.
       destruct (position n ps) eqn:P; [|apply position_none in P; apply P, Sub; now left].
       destruct (sort_indices sort ps); [discriminate|]. apply IH; auto. intros; apply Sub; now right. }
  destruct (collect lst ds ps (depth_of dp r)) as [l|e] eqn:E; [|exists (CErr e); split; [exact C|discriminate]].
  destruct (collect_names _ _ _ _ _ _ _ F E) as [N Q]. pose proof Q as Q0. rewrite Forall_forall in Q0. destruct C as [[_ (x & y & Ix & Iy & X)]|(all & P & S & ->)].
  - exfalso. destruct (cmp_by_before val ps sort idx x y Si (Q0 _ Ix) (Q0 _ Iy)) as (c & G & _). congruence.
  - eexists. split; [reflexivity|]. intros txt [= <-]. exists (map di_name all). rewrite <- N. split; [now apply Permutation_map|].
    assert (Qa : Forall (fun x => di_props x = map (val (di_name x)) ps) all) by (eapply Permutation_Forall; eauto). split.
    + clear - S Qa Si. induction S as [|x m S IH G]; [constructor|]. inversion Qa as [|? ? Qx Qm]; subst. cbn [map]. constructor; [auto|]. apply Forall_map.
      apply Forall_forall. intros y I. rewrite Forall_forall in G, Qm. destruct (G _ I) as (c & Cy & Ng).
      destruct (cmp_by_before val ps sort idx x y Si Qx (Qm _ I)) as (c' & Cy' & B). rewrite Cy in Cy'. injection Cy' as <-. auto.
    + f_equal. rewrite map_map. clear - Qa. induction Qa as [|x m H Qa IH]; [reflexivity|]. cbn [map]. rewrite IH, H, map_map. reflexivity.
Qed.

(** Unless the name is among the properties asked for, the command with its default order fails, for any pool. *)
Theorem C108_list_default_refuted lst r dp ps ds out : ~ In NName ps -> list_cmd lst [NName] r dp ps ds out -> out = Some (CErr (Other 22)).
Proof. intros N C. unfold list_cmd in C. cbn [sort_indices] in C. apply position_none in N. rewrite N in C. exact C. Qed.

(** If no data set is given nothing is listed. *)
Theorem C108_list_nothing_refuted lst r dp out : list_cmd lst [NName] r dp [NName] [] out -> out = Some (COk []).
Proof.
  unfold list_cmd. cbn. intros [[_ (x & _ & [] & _)]|(all & P & _ & ->)]. apply Permutation_nil in P. subst. reflexivity.
Qed.

(** * Examples *)

Definition ex_val (d : text) (n : pname) : property * psource :=
  match n with
  | NName => (Name d, SNone)
  | NAtime => if text_eqb d (str "p/b") then (Atime false, SSet 0) else if text_eqb d (str "p/b/c") then (Atime false, SSet 1) else (Atime true, SDefault)
  | NRecordSize => (RecordSize 17, SDefault)
  | _ => (Mountpoint (47 :: d), SDefault)
  end.
Definition ex_names (d : text) (k : Z) : list text :=
  if k =? 0 then [d] else if text_eqb d (str "p") then [str "p"; str "p/b"; str "p/a"; str "p/b/c"] else if text_eqb d (str "p/b") then [d; str "p/b/c"] else [d].
Definition ex_lst : listing := fun d ps k => COk (map (fun n => mkdi n (map (ex_val n) ps) 0) (ex_names d k)).
Example C108_ex_faithful : faithful ex_lst ex_val ex_names.
Proof.
  intros d ps k l [= <-]. split; [rewrite map_map; apply map_id|]. apply Forall_map. apply Forall_forall. reflexivity.
Qed.
Example C108_ex_sources d n : source_ok (snd (ex_val d n)).
Proof. destruct n; cbn; repeat destruct (text_eqb _ _); cbn; try exact I; lia. Qed.
Ltac sorted := repeat (constructor; [|repeat (constructor; [try discriminate; try (eexists; split; [reflexivity|discriminate])|]); try constructor]); try constructor.
Example C108_ex_get : get_cmd ex_lst [GName; GValue; GSource] (map source_of [KLocal; KInherited]) true None [NAtime] [str "p"]
  (COk (print_rows [[str "p/b"; str "off"; str "local"]; [str "p/b/c"; str "off"; str "inherited"]])).
Proof.
  unfold get_cmd. cbn [collect ex_lst]. eexists (map (retain _) (map (fun n => mkdi n (map (ex_val n) [NAtime]) 0) [str "p"; str "p/a"; str "p/b"; str "p/b/c"])). split; [split|].
  - cbn. apply perm_skip. apply perm_swap.
  - cbn. sorted.
  - reflexivity.
Qed.
Example C108_ex_list : list_cmd ex_lst [NAtime; NName] true None [NName; NAtime] [str "p"]
  (Some (COk (print_rows [[str "p/b"; str "off"]; [str "p/b/c"; str "off"]; [str "p"; str "on"]; [str "p/a"; str "on"]]))).
Proof.
  unfold list_cmd. cbn [sort_indices position pname_eqb option_map]. right.
  exists (map (fun n => mkdi n (map (ex_val n) [NName; NAtime]) 0) [str "p/b"; str "p/b/c"; str "p"; str "p/a"]). split; [|split].
  - rewrite app_nil_r. apply Permutation_map. change (ex_names (str "p") (depth_of None true)) with [str "p"; str "p/b"; str "p/a"; str "p/b/c"]. apply perm_trans with [str "p/b"; str "p"; str "p/a"; str "p/b/c"]; [apply perm_swap|]. apply perm_skip.
    apply perm_trans with [str "p"; str "p/b/c"; str "p/a"]; [apply perm_skip, perm_swap|apply perm_swap].
  - cbn. sorted.
  - reflexivity.
Qed.
Example C108_ex_readable : Forall (fun r => r <> [] /\ Forall clean r) [[str "p/b"; str "off"]; [str "p/b/c"; str "off"]].
Proof. unfold clean. repeat (constructor; try (split; [discriminate|])); unfold TAB, NEWLINE; cbn; lia. Qed.
Example C108_ex_twice : In (str "p/b") (ex_names (str "p") USIZE_MAX) /\ In (str "p/b") (ex_names (str "p/b") USIZE_MAX).
Proof. split; vm_compute; auto. Qed.

Print Assumptions C108_source_words.
Print Assumptions C108_get.
Print Assumptions C108_given_only.
Print Assumptions C108_get_ends.
Print Assumptions C108_twice_refuted.
Print Assumptions C108_readable.
Print Assumptions C108_readable_refuted.
Print Assumptions C108_property_column_refuted.
Print Assumptions C108_list.
Print Assumptions C108_list_default_refuted.
Print Assumptions C108_list_nothing_refuted.
