(** C101: "bfffs pool create" makes the pool that its arguments describe. *)
From Coq Require Import String.
From Verif Require Import Common Prop_Model PoolCreate_Model.
From Verif Require PrimeSW_Model PrimeS_Proofs2 Prop_Props.
From Coq Require Import Znumtheory.
Import List ListNotations.
Open Scope Z_scope.

(** * Vocabulary *)

(** The grammar, rule by rule (pool_create_parser.lalrpop).  [plus g]: one or
    more of [g] in a row. *)
Inductive plus {A} (g : list token -> A -> Prop) : list token -> list A -> Prop :=
| plus_one : forall ts a, g ts a -> plus g ts [a]
| plus_more : forall t1 a t2 l, g t1 a -> plus g t2 l -> plus g (t1 ++ t2) (a :: l).

(** The value of decimal digits. *)
Fixpoint decimal (ds : text) : Z :=
  match ds with
  | [] => 0
  | d :: r => (d - 48) * 10 ^ Z.of_nat (length r) + decimal r
  end.

Inductive g_num : list token -> Z -> Prop :=
| g_num_ : forall ds, decimal ds <= 32767 -> g_num [Num ds] (decimal ds).
Inductive g_path : list token -> text -> Prop :=
| g_path_ : forall p, g_path [Path p] p.
Inductive g_mirror : list token -> list text -> Prop :=
| g_mirror_ : forall ts ps, plus g_path ts ps -> g_mirror (KMirror :: ts) ps.
Inductive g_raid : list token -> tlv -> Prop :=
| g_raid_disks : forall a b ts k f ps, g_num a k -> g_num b f -> plus g_path ts ps ->
    g_raid (KRaid :: a ++ b ++ ts) (TRaid k f (map RDisk ps))
| g_raid_mirrors : forall a b ts k f ms, g_num a k -> g_num b f -> plus g_mirror ts ms ->
    g_raid (KRaid :: a ++ b ++ ts) (TRaid k f (map RMirror ms)).
Inductive g_pool : list token -> list tlv -> Prop :=
| g_pool_disks : forall ts ps, plus g_path ts ps -> g_pool ts (map TDisk ps)
| g_pool_mirrors : forall ts ms, plus g_mirror ts ms -> g_pool ts (map TMirror ms)
| g_pool_raids : forall ts rs, plus g_raid ts rs -> g_pool ts rs.

(** The layout that a description means. *)
Definition child_disks (v : raid_child) : list text :=
  match v with RDisk d => [d] | RMirror ds => ds end.
Definition meaning (t : tlv) : cluster :=
  match t with
  | TRaid k f vs => mkCl k f (map child_disks vs)
  | TMirror ds => mkCl 1 0 [ds]
  | TDisk d => mkCl 1 0 [[d]]
  end.

(** The devices of a layout, in order. *)
Definition disks (cs : list cluster) : list text :=
  flat_map (fun c => concat (cl_mirrors c)) cs.

(** A RAID needs a prime number of members, and more than f of them. *)
Definition good_geometry (n k f : Z) : Prop :=
  (n = 1 /\ k = 1 /\ f = 0) \/
  (prime n /\ n <= 215 /\ 1 < k <= n /\ 0 < f < k).

(** A layout that can be made: all devices exist and are different, those of
    one cluster are alike. *)
Record possible (w : world) (cs : list cluster) : Prop := mkPossible {
  p_exist : forall d, In d (disks cs) -> w d <> None;
  p_distinct : NoDup (map (fun d => option_map dev_id (w d)) (disks cs));
  p_geometry : forall c, In c cs ->
    good_geometry (Z.of_nat (length (cl_mirrors c))) (cl_k c) (cl_f c);
  p_mirrors : forall c m, In c cs -> In m (cl_mirrors c) -> m <> [];
  p_alike : forall c d e, In c cs -> In d (concat (cl_mirrors c)) ->
    In e (concat (cl_mirrors c)) ->
    option_map dev_size (w d) = option_map dev_size (w e) /\
    option_map dev_zone (w d) = option_map dev_zone (w e) }.

(** The command's 16-bit count of members is right. *)
Definition not_huge (cs : list cluster) : Prop :=
  forall c, In c cs -> Z.of_nat (length (cl_mirrors c)) < 32768.

(** An argument that is one word of the grammar. *)
Definition name_word (a : text) : Prop :=
  match a with
  | [] => False
  | c :: r => path_start c = true /\ forall x, In x r -> path_char x = true
  end.
Definition num_word (a : text) : Prop := a <> [] /\ forall x, In x a -> is_digit x = true.
Definition keyword (a : text) : Prop := a = str "mirror" \/ a = str "raid".
Definition device_name (a : text) : Prop := name_word a /\ ~ keyword a.

(** * The parser and the grammar *)

Definition starts_path (ts : list token) : bool := match ts with Path _ :: _ => true | _ => false end.
Definition starts_mirror (ts : list token) : bool := match ts with KMirror :: _ => true | _ => false end.
Definition starts_raid (ts : list token) : bool := match ts with KRaid :: _ => true | _ => false end.

Lemma plus_path ts ps : plus g_path ts ps <-> ps <> [] /\ ts = map Path ps.
Proof.
  split.
  - induction 1 as [ts a [p]|t1 a t2 l [p] _ [_ ->]]; (split; [discriminate|]); reflexivity.
  - intros [H ->]. induction ps as [|p [|q r] IH]; [congruence| |].
    + constructor. constructor.
    + change (map Path (p :: q :: r)) with ([Path p] ++ map Path (q :: r)).
      apply plus_more; [constructor|]. apply IH. discriminate.
Qed.

Lemma paths_sound ts ps r : paths ts = (ps, r) -> ts = map Path ps ++ r /\ starts_path r = false.
Proof.
  revert ps r. induction ts as [|t ts IH]; intros ps r; cbn.
  - intros [= <- <-]. auto.
  - destruct t; try (intros [= <- <-]; auto).
    destruct (paths ts) as [qs r'] eqn:E. intros [= <- <-].
    destruct (IH _ _ eq_refl) as [-> H]. auto.
Qed.

Lemma paths_complete ps r : starts_path r = false -> paths (map Path ps ++ r) = (ps, r).
Proof.
  intros H. induction ps as [|p ps IH]; cbn.
  - destruct r as [|[] r]; cbn in *; auto; discriminate.
  - now rewrite IH.
Qed.

Definition mirror_tokens (m : list text) : list token := KMirror :: map Path m.

Lemma plus_mirror ts ms : plus g_mirror ts ms <->
  ms <> [] /\ (forall m, In m ms -> m <> []) /\ ts = flat_map mirror_tokens ms.
Proof.
  split.
  - induction 1 as [ts a G|t1 a t2 l G _ (_ & H & ->)]; destruct G as [ts ps G];
      apply plus_path in G as [N ->]; (split; [discriminate|]).
    + split; [intros m [<-|[]]; auto|]. cbn. now rewrite app_nil_r.
    + split; [intros m [<-|Hm]; auto|]. reflexivity.
  - intros (N & H & ->). induction ms as [|m [|m' r] IH]; [congruence| |].
    + cbn. rewrite app_nil_r. constructor. constructor. apply plus_path.
      split; auto. apply H. now left.
    + change (flat_map mirror_tokens (m :: m' :: r)) with
        (mirror_tokens m ++ flat_map mirror_tokens (m' :: r)).
      apply plus_more.
      * constructor. apply plus_path. split; auto. apply H. now left.
      * apply IH; [discriminate|]. intros x Hx. apply H. now right.
Qed.

Lemma mirrors_sound fuel : forall ts ms r, mirrors fuel ts = Some (ms, r) ->
  ts = flat_map mirror_tokens ms ++ r /\ (forall m, In m ms -> m <> []) /\
  starts_mirror r = false /\ (ms <> [] -> starts_path r = false).
Proof.
  induction fuel as [|fu IH]; intros ts ms r; cbn; [discriminate|].
  destruct ts as [|[| | |] ts]; try (intros [= <- <-]; cbn; intuition congruence).
  destruct (paths ts) as [ps r'] eqn:E. destruct (paths_sound _ _ _ E) as [-> S].
  destruct ps as [|p ps]; [discriminate|].
  destruct (mirrors fu r') as [[ms' r'']|] eqn:M; [|discriminate].
  intros [= <- <-]. destruct (IH _ _ _ M) as (-> & A & B & C). split; [|split; [|split]].
  - cbn. now rewrite <- app_assoc.
  - intros m [<-|Hm]; [discriminate|auto].
  - exact B.
  - intros _. destruct ms' as [|m ms']; [exact S|]. apply C. discriminate.
Qed.

Lemma mirrors_complete ms : forall fuel r, (forall m, In m ms -> m <> []) ->
  starts_mirror r = false -> starts_path r = false ->
  (length (flat_map mirror_tokens ms ++ r) < fuel)%nat ->
  mirrors fuel (flat_map mirror_tokens ms ++ r) = Some (ms, r).
Proof.
  induction ms as [|m ms IH]; intros [|fu] r H A B L; try (cbn in L; lia).
  - cbn. destruct r as [|[] r]; auto. discriminate.
  - cbn [flat_map mirror_tokens app mirrors]. rewrite <- app_assoc.
    rewrite paths_complete.
    2:{ destruct ms; cbn; auto. }
    destruct m as [|d m]; [exfalso; apply (H []); [now left|reflexivity]|].
    rewrite IH; auto.
    + intros x Hx. apply H. now right.
    + cbn in L. rewrite !app_length in L. rewrite app_length. cbn in L. lia.
Qed.

Lemma decimal_fold ds : forall a,
  fold_left (fun a c => 10 * a + (c - 48)) ds a = a * 10 ^ Z.of_nat (length ds) + decimal ds.
Proof.
  induction ds as [|d r IH]; intros a; cbn [fold_left decimal length].
  - cbn. lia.
  - rewrite IH, Nat2Z.inj_succ, Z.pow_succ_r by lia. ring.
Qed.

Lemma number_spec ds v : number ds = Some v <-> v = decimal ds /\ decimal ds <= 32767.
Proof.
  unfold number. rewrite decimal_fold, Z.mul_0_l, Z.add_0_l.
  destruct (Z.leb_spec (decimal ds) 32767).
  - split; [intros [= <-]; auto|intros [-> _]; auto].
  - split; [discriminate|lia].
Qed.

Lemma g_num_spec ts v : g_num ts v <-> exists ds, ts = [Num ds] /\ number ds = Some v.
Proof.
  split.
  - intros [ds H]. exists ds. split; auto. now apply number_spec.
  - intros (ds & -> & H). apply number_spec in H as [-> H]. now constructor.
Qed.

(** A description of one RAID begins with "raid". *)
Lemma g_raid_head ts t : g_raid ts t -> exists r, ts = KRaid :: r.
Proof. intros []; eauto. Qed.
Lemma plus_raid_head ts l : plus g_raid ts l -> exists r, ts = KRaid :: r.
Proof. intros [ts' a H|t1 a t2 l' H _]; destruct (g_raid_head _ _ H) as [r ->]; cbn; eauto. Qed.

Lemma raids_sound fuel : forall ts l r, raids fuel ts = Some (l, r) ->
  (l = [] /\ ts = r) \/ exists t, ts = t ++ r /\ plus g_raid t l.
Proof.
  induction fuel as [|fu IH]; intros ts l r; [discriminate|]. cbn [raids].
  destruct ts as [|[| | |] ts]; try (intros [= <- <-]; auto; fail).
  destruct ts as [|[| |a|] [|[| |b|] ts]]; try discriminate.
  destruct (number a) as [k|] eqn:Ea; [|discriminate].
  destruct (number b) as [f|] eqn:Eb; [|discriminate].
  assert (Na : g_num [Num a] k) by (apply g_num_spec; eauto).
  assert (Nb : g_num [Num b] f) by (apply g_num_spec; eauto).
  assert (K : forall vs t r', ts = t ++ r' ->
            g_raid (KRaid :: [Num a] ++ [Num b] ++ t) (TRaid k f vs) ->
            match raids fu r' with
            | Some (ts', r'') => Some (TRaid k f vs :: ts', r'')
            | None => None
            end = Some (l, r) ->
            (l = [] /\ KRaid :: Num a :: Num b :: ts = r) \/
            exists t, KRaid :: Num a :: Num b :: ts = t ++ r /\ plus g_raid t l).
  { intros vs t r' -> G. destruct (raids fu r') as [[ts' r'']|] eqn:E; [|discriminate].
    intros [= <- <-]. right. destruct (IH _ _ _ E) as [[-> ->]|(t' & -> & P)].
    - exists (KRaid :: Num a :: Num b :: t). split; [reflexivity|]. now constructor.
    - exists ((KRaid :: Num a :: Num b :: t) ++ t'). split.
      + cbn. now rewrite <- app_assoc.
      + apply plus_more; auto. }
  destruct (starts_mirror ts) eqn:Em.
  - destruct ts as [|[| | |] ts1]; try discriminate.
    destruct (mirrors (S (length (KMirror :: ts1))) (KMirror :: ts1)) as [[ms r']|] eqn:M; [|discriminate].
    destruct (mirrors_sound _ _ _ _ M) as (E & A & B & C).
    destruct ms as [|m ms]; [discriminate|].
    intros H. refine (K _ (flat_map mirror_tokens (m :: ms)) r' _ _ H).
    + exact E.
    + apply (g_raid_mirrors [Num a] [Num b]); auto. apply plus_mirror. repeat split; auto. discriminate.
  - assert (X : (let '(ps, r') := paths ts in
        match map RDisk ps with
        | [] => None
        | _ => match raids fu r' with
             | Some (ts', r'') => Some (TRaid k f (map RDisk ps) :: ts', r'')
             | None => None
             end
        end) = Some (l, r) ->
        (l = [] /\ KRaid :: Num a :: Num b :: ts = r) \/
            exists t, KRaid :: Num a :: Num b :: ts = t ++ r /\ plus g_raid t l).
    { destruct (paths ts) as [ps r'] eqn:E. destruct (paths_sound _ _ _ E) as [E' S].
      destruct ps as [|p ps]; [discriminate|]. intros H.
      refine (K _ (map Path (p :: ps)) r' E' _ H).
      apply (g_raid_disks [Num a] [Num b]); auto. apply plus_path. split; auto. discriminate. }
    destruct ts as [|[| | |] ts1]; try discriminate; exact X.
Qed.

Lemma raids_complete ts l : plus g_raid ts l -> forall fuel,
  (length ts < fuel)%nat -> raids fuel ts = Some (l, []).
Proof.
  assert (K : forall t1 a t2 l0, g_raid t1 a ->
            (t2 = [] \/ exists r, t2 = KRaid :: r) ->
            forall fuel, (length (t1 ++ t2) < S fuel)%nat ->
            raids fuel t2 = Some (l0, []) -> raids (S fuel) (t1 ++ t2) = Some (a :: l0, [])).
  { intros t1 a t2 l0 G H2 fuel L R2.
    assert (Hp : starts_path t2 = false) by (destruct H2 as [->|[r ->]]; reflexivity).
    assert (Hm : starts_mirror t2 = false) by (destruct H2 as [->|[r ->]]; reflexivity).
    destruct G as [a b tt0 k f ps Ga Gb P|a b tt0 k f ms Ga Gb P];
      apply g_num_spec in Ga as (da & -> & Ea); apply g_num_spec in Gb as (db & -> & Eb).
    - apply plus_path in P as [N ->]. cbn [app raids]. rewrite Ea, Eb.
      destruct ps as [|p ps]; [congruence|].
      change (map Path (p :: ps) ++ t2) with (Path p :: (map Path ps ++ t2)).
      change (Path p :: (map Path ps ++ t2)) with (map Path (p :: ps) ++ t2).
      rewrite (paths_complete (p :: ps) t2 Hp). cbn [map app]. now rewrite R2.
    - apply plus_mirror in P as (N & H & ->). cbn [app raids]. rewrite Ea, Eb.
      destruct ms as [|m ms]; [congruence|].
      cbn [flat_map mirror_tokens app].
      change (KMirror :: (map Path m ++ flat_map mirror_tokens ms) ++ t2)
        with (flat_map mirror_tokens (m :: ms) ++ t2).
      rewrite mirrors_complete; auto. cbn [map]. now rewrite R2. }
  induction 1 as [ts a G|t1 a t2 l G P IH]; intros [|fuel] L; try lia.
  - rewrite <- (app_nil_r ts). apply K; auto; [now rewrite app_nil_r|].
    destruct (g_raid_head _ _ G) as [r ->]. cbn in L. destruct fuel; [lia|]. reflexivity.
  - apply K; auto.
    + right. apply (plus_raid_head _ _ P).
    + apply IH. rewrite app_length in L. destruct (g_raid_head _ _ G) as [r ->]. cbn in L. lia.
Qed.

(** The parser accepts what the grammar describes, and reads it so. *)
Theorem C101_grammar : forall ts a, parse ts = Some a <-> g_pool ts a.
Proof.
  intros ts a. split.
  - destruct ts as [|[| | |p] ts]; cbn [parse]; try discriminate.
    + destruct (mirrors _ _) as [[ms r]|] eqn:M; [|discriminate].
      destruct (mirrors_sound _ _ _ _ M) as (E & A & B & C).
      destruct ms as [|m ms], r; cbn [option_map]; try discriminate.
      intros [= <-]. apply (g_pool_mirrors _ (m :: ms)). apply plus_mirror.
      split; [discriminate|]. split; auto. now rewrite app_nil_r in E.
    + destruct (raids _ _) as [[l r]|] eqn:R; [|discriminate].
      destruct l as [|x l], r; try discriminate. intros [= <-].
      destruct (raids_sound _ _ _ _ R) as [[? _]|(t & E & P)]; [discriminate|].
      rewrite app_nil_r in E. subst t. now constructor.
    + destruct (paths (Path p :: ts)) as [ps r] eqn:E.
      destruct (paths_sound _ _ _ E) as [E' S].
      destruct ps as [|q ps], r; cbn [option_map]; try discriminate.
      intros [= <-]. apply (g_pool_disks _ (q :: ps)). apply plus_path.
      split; [discriminate|]. now rewrite app_nil_r in E'.
  - intros [ts' ps P|ts' ms P|ts' rs P].
    + apply plus_path in P as [N ->]. destruct ps as [|p ps]; [congruence|].
      pose proof (paths_complete (p :: ps) [] eq_refl) as X. rewrite app_nil_r in X.
      cbn [map parse]. cbn [map] in X. rewrite X. reflexivity.
    + apply plus_mirror in P as (N & H & ->). destruct ms as [|m ms]; [congruence|].
      pose proof (mirrors_complete (m :: ms) (S (length (flat_map mirror_tokens (m :: ms)))) [] H eq_refl eq_refl) as X.
      rewrite app_nil_r in X. specialize (X (Nat.lt_succ_diag_r _)).
      cbn [flat_map mirror_tokens app parse] in *. rewrite X. reflexivity.
    + destruct (plus_raid_head _ _ P) as [r ->].
      cbn [parse]. rewrite (raids_complete _ _ P); [|lia].
      destruct rs; [inversion P|]. reflexivity.
Qed.

(** * Arguments and tokens *)

Inductive arg_means : text -> token -> Prop :=
| am_mirror : arg_means (str "mirror") KMirror
| am_raid : arg_means (str "raid") KRaid
| am_num : forall a, num_word a -> arg_means a (Num a)
| am_name : forall a, device_name a -> arg_means a (Path a).

Lemma word_token_spec a t : name_word a -> arg_means a t -> word_token a = t.
Proof.
  intros N M. revert N. destruct M as [| |b [E H]|b [_ K]]; intros N; try reflexivity.
  - exfalso. destruct b as [|c r]; [congruence|]. destruct N as [N _].
    specialize (H c (or_introl eq_refl)). unfold path_start, is_digit in *. lia.
  - unfold word_token, keyword in *.
    destruct (text_eqb b (str "mirror")) eqn:E1; [apply Prop_Props.text_eqb_eq in E1; tauto|].
    destruct (text_eqb b (str "raid")) eqn:E2; [apply Prop_Props.text_eqb_eq in E2; tauto|].
    reflexivity.
Qed.

Lemma name_word_b a :
  match a with c :: r => path_start c && forallb path_char r | [] => false end = true ->
  name_word a.
Proof.
  destruct a as [|c r]; [discriminate|]. intros H. apply andb_prop in H as [A B].
  split; auto. now apply forallb_forall.
Qed.

Lemma arg_kind a t : arg_means a t -> name_word a \/ (num_word a /\ t = Num a).
Proof.
  intros [| |b H|b [H _]]; auto; left; apply name_word_b; reflexivity.
Qed.

Lemma lex_path r : forall w s, (forall x, In x r -> path_char x = true) ->
  lex (InPath w) (r ++ s) = lex (InPath (rev r ++ w)) s.
Proof.
  induction r as [|c r IH]; intros w s H; [reflexivity|]. cbn [app lex].
  rewrite (H c (or_introl eq_refl)), IH by (intros; apply H; now right).
  cbn [rev]. now rewrite <- app_assoc.
Qed.

Lemma lex_num r : forall w s, (forall x, In x r -> is_digit x = true) ->
  lex (InNum w) (r ++ s) = lex (InNum (rev r ++ w)) s.
Proof.
  induction r as [|c r IH]; intros w s H; [reflexivity|]. cbn [app lex].
  rewrite (H c (or_introl eq_refl)), IH by (intros; apply H; now right).
  cbn [rev]. now rewrite <- app_assoc.
Qed.

Lemma path_not_space c : path_start c = true -> is_space c = false.
Proof. unfold path_start, is_space. lia. Qed.
Lemma digit_not_space c : is_digit c = true -> is_space c = false.
Proof. unfold is_digit, is_space. lia. Qed.
Lemma digit_not_path c : is_digit c = true -> path_start c = false.
Proof. unfold is_digit, path_start. lia. Qed.

Lemma lex_word a t s : arg_means a t ->
  lex Between a = Some [t] /\ lex Between (a ++ 32 :: s) = option_map (cons t) (lex Between s).
Proof.
  intros H. destruct (arg_kind a t H) as [N|[[N D] ->]].
  - pose proof (word_token_spec _ _ N H) as W.
    destruct a as [|c r]; [destruct N|]. destruct N as [N1 N2].
    cbn [app lex]. rewrite (path_not_space c N1), N1.
    rewrite lex_path by exact N2. rewrite <- (app_nil_r r) at 1.
    rewrite lex_path by exact N2. cbn [lex].
    rewrite rev_app_distr, rev_involutive. cbn [rev app]. rewrite W.
    split; [reflexivity|]. reflexivity.
  - destruct a as [|c r]; [congruence|].
    pose proof (D c (or_introl eq_refl)) as N1.
    assert (N2 : forall x, In x r -> is_digit x = true) by (intros; apply D; now right).
    cbn [app lex]. rewrite (digit_not_space c N1), (digit_not_path c N1), N1.
    rewrite lex_num by exact N2. rewrite <- (app_nil_r r) at 1.
    rewrite lex_num by exact N2. cbn [lex].
    rewrite rev_app_distr, rev_involutive. cbn [rev app].
    split; reflexivity.
Qed.

(** Arguments without white space are read one by one. *)
Theorem C101_words : forall args ts,
  Forall2 arg_means args ts -> lex Between (join args) = Some ts.
Proof.
  intros args ts H. induction H as [|a t args ts Ha H IH]; [reflexivity|].
  destruct args as [|b args].
  - inversion H; subst. cbn [join]. apply (lex_word a t [] Ha).
  - change (join (a :: b :: args)) with (a ++ 32 :: join (b :: args)).
    rewrite (proj2 (lex_word a t _ Ha)), IH. reflexivity.
Qed.

(** * Building *)

Section Build.
Variable w : world.

Definition id_of (d : text) : Z := match w d with Some v => dev_id v | None => 0 end.

Definition opens (ds : list text) (op : list Z) : Prop :=
  (forall d, In d ds -> w d <> None) /\ NoDup (map id_of ds) /\
  (forall d, In d ds -> ~ In (id_of d) op).

Lemma opens_nil op : opens [] op.
Proof. split; [|split]; [intros ? []|constructor|intros ? []]. Qed.

Lemma opens_cons d ds op : opens (d :: ds) op <->
  w d <> None /\ ~ In (id_of d) op /\ opens ds (id_of d :: op).
Proof.
  split.
  - intros (A & B & C). cbn in B. apply NoDup_cons_iff in B as [B1 B2].
    split; [apply A; now left|]. split; [apply C; now left|].
    split; [intros x Hx; apply A; now right|]. split; auto.
    intros x Hx [E|Hin].
    + apply B1. rewrite E. now apply in_map.
    + apply (C x); auto. now right.
  - intros (A & B & C & D & E). split; [|split].
    + intros x [<-|Hx]; auto.
    + cbn. constructor; auto. intros Hin. apply in_map_iff in Hin as (x & Ex & Hx).
      apply (E x Hx). left. auto.
    + intros x [<-|Hx]; auto. intros Hin. apply (E x Hx). now right.
Qed.

Lemma opens_app a : forall b op,
  opens (a ++ b) op <-> opens a op /\ opens b (rev (map id_of a) ++ op).
Proof.
  induction a as [|d a IH]; intros b op; cbn [app].
  - cbn. split; [intros H; split; auto; apply opens_nil|tauto].
  - rewrite !opens_cons, IH. cbn [map rev]. rewrite <- app_assoc. cbn [app]. tauto.
Qed.

Lemma open_all_spec ds : forall op op',
  open_all w ds op = Ok op' <-> opens ds op /\ op' = rev (map id_of ds) ++ op.
Proof.
  induction ds as [|d ds IH]; intros op op'; cbn [open_all].
  - cbn. split; [intros [= <-]; split; auto; apply opens_nil|intros [_ ->]; auto].
  - rewrite opens_cons.
    destruct (w d) as [v|] eqn:E.
    + assert (Ei : id_of d = dev_id v) by (unfold id_of; now rewrite E).
      destruct (existsb (Z.eqb (dev_id v)) op) eqn:X.
      * split; [discriminate|]. intros ((_ & N & _) & _). exfalso. apply N.
        apply existsb_exists in X as (y & Hy & Ey). apply Z.eqb_eq in Ey. congruence.
      * assert (N : ~ In (dev_id v) op).
        { intros Hin. rewrite <- Bool.not_true_iff_false in X. apply X.
          apply existsb_exists. exists (dev_id v). split; auto. apply Z.eqb_refl. }
        rewrite IH. cbn [map rev]. rewrite Ei, <- app_assoc. cbn [app].
        split; [intros [A B]|intros [[_ [_ A]] B]]; repeat split; auto; try discriminate; apply A.
    + split; [discriminate|]. intros ((N & _) & _). congruence.
Qed.

Lemma create_mirror_spec b ds b' : create_mirror w b ds = Ok b' <->
  opens ds (opened b) /\ mirror_ok w ds = true /\
  b' = mkB (rev (map id_of ds) ++ opened b) (pending b ++ [ds]) (clusters b).
Proof.
  unfold create_mirror. destruct (open_all w ds (opened b)) as [op| |] eqn:E.
  - apply open_all_spec in E as [O ->]. destruct (mirror_ok w ds).
    + split; [intros [= <-]; auto|intros (_ & _ & ->); auto].
    + split; [discriminate|intros (_ & ? & _); discriminate].
  - split; [discriminate|]. intros (O & _ & _).
    assert (X : open_all w ds (opened b) = Ok (rev (map id_of ds) ++ opened b))
      by (apply open_all_spec; auto). congruence.
  - split; [discriminate|]. intros (O & _ & _).
    assert (X : open_all w ds (opened b) = Ok (rev (map id_of ds) ++ opened b))
      by (apply open_all_spec; auto). congruence.
Qed.

Lemma bind_ok {A B} (x : result A) (g : A -> result B) y :
  bind x g = Ok y <-> exists a, x = Ok a /\ g a = Ok y.
Proof.
  destruct x; cbn; split; try discriminate; try (intros (a' & ? & ?); discriminate).
  - eauto.
  - intros (a' & [= <-] & H). exact H.
Qed.

Lemma children_spec vs : forall b b', create_children w b vs = Ok b' <->
  opens (concat (map child_disks vs)) (opened b) /\
  (forall m, In m (map child_disks vs) -> mirror_ok w m = true) /\
  b' = mkB (rev (map id_of (concat (map child_disks vs))) ++ opened b)
           (pending b ++ map child_disks vs) (clusters b).
Proof.
  induction vs as [|v vs IH]; intros b b'.
  - cbn. rewrite app_nil_r. destruct b as [op pe cl]; cbn. split.
    + intros [= <-]. split; [apply opens_nil|]. split; [intros ? []|reflexivity].
    + intros (_ & _ & ->). reflexivity.
  - assert (E : create_children w b (v :: vs) =
                bind (create_mirror w b (child_disks v)) (fun b' => create_children w b' vs))
      by (destruct v; reflexivity).
    rewrite E, bind_ok. cbn [map concat]. rewrite opens_app, map_app, rev_app_distr.
    split.
    + intros (b1 & H1 & H2). apply create_mirror_spec in H1 as (O & M & ->).
      apply IH in H2 as (O2 & M2 & ->). cbn [opened pending clusters] in *.
      split; [auto|]. split; [intros m [<-|Hm]; auto|].
      rewrite <- !app_assoc. reflexivity.
    + intros ((O & O2) & M & ->).
      eexists. split; [apply create_mirror_spec; split; [exact O|]; split; [|reflexivity]|].
      * apply M. now left.
      * apply IH. cbn [opened pending clusters]. split; auto.
        split; [intros m Hm; apply M; now right|]. rewrite <- !app_assoc. reflexivity.
Qed.

Definition cluster_ok (c : cluster) : Prop :=
  (forall m, In m (cl_mirrors c) -> mirror_ok w m = true) /\
  raid_ok w (cl_k c) (cl_f c) (cl_mirrors c) = true.

Lemma tlv_spec t : forall op cs b',
  match t with
  | TRaid k f vs => bind (create_children w (mkB op [] cs) vs) (fun b' => create_cluster w b' k f)
  | TMirror ds => bind (create_mirror w (mkB op [] cs) ds) (fun b' => create_cluster w b' 1 0)
  | TDisk d => bind (create_mirror w (mkB op [] cs) [d]) (fun b' => create_cluster w b' 1 0)
  end = Ok b' <->
  opens (concat (cl_mirrors (meaning t))) op /\ cluster_ok (meaning t) /\
  b' = mkB (rev (map id_of (concat (cl_mirrors (meaning t)))) ++ op) [] (cs ++ [meaning t]).
Proof.
  assert (K : forall b k f b', create_cluster w b k f = Ok b' <->
            raid_ok w k f (pending b) = true /\
            b' = mkB (opened b) [] (clusters b ++ [mkCl k f (pending b)])).
  { intros b k f b'. unfold create_cluster. destruct (raid_ok w k f (pending b)).
    - split; [intros [= <-]; auto|intros [_ ->]; auto].
    - split; [discriminate|intros [? _]; discriminate]. }
  assert (M : forall ds op cs b',
    bind (create_mirror w (mkB op [] cs) ds) (fun b' => create_cluster w b' 1 0) = Ok b' <->
    opens (concat [ds]) op /\ cluster_ok (mkCl 1 0 [ds]) /\
    b' = mkB (rev (map id_of (concat [ds])) ++ op) [] (cs ++ [mkCl 1 0 [ds]])).
  { intros ds op cs b'. rewrite bind_ok. cbn [concat]. rewrite app_nil_r. split.
    - intros (b1 & H1 & H2). apply create_mirror_spec in H1 as (O & E & ->).
      apply K in H2 as (R & ->). cbn [opened pending clusters app] in *.
      split; auto. split; auto. split; auto. intros m [<-|[]]; auto.
    - intros (O & (A & B) & ->). eexists. split; [apply create_mirror_spec|].
      + split; [exact O|]. split; [apply A; now left|reflexivity].
      + apply K. cbn [opened pending clusters app]. split; auto. }
  intros op cs b'. destruct t as [k f vs|ds|d]; cbn [meaning cl_mirrors].
  - rewrite bind_ok. split.
    + intros (b1 & H1 & H2). apply children_spec in H1 as (O & E & ->).
      apply K in H2 as (R & ->). cbn [opened pending clusters app] in *.
      split; auto. split; auto. split; auto.
    + intros (O & (A & B) & ->). eexists. split; [apply children_spec|].
      * split; [exact O|]. split; [exact A|reflexivity].
      * apply K. cbn [opened pending clusters app]. split; auto.
  - apply M.
  - apply M.
Qed.

Lemma build_spec ts : forall op cs b', build w (mkB op [] cs) ts = Ok b' <->
  opens (disks (map meaning ts)) op /\
  (forall c, In c (map meaning ts) -> cluster_ok c) /\
  b' = mkB (rev (map id_of (disks (map meaning ts))) ++ op) [] (cs ++ map meaning ts).
Proof.
  induction ts as [|t ts IH]; intros op cs b'.
  - cbn. rewrite app_nil_r. split.
    + intros [= <-]. split; [apply opens_nil|]. split; [intros ? []|reflexivity].
    + intros (_ & _ & ->). reflexivity.
  - cbn [build]. rewrite bind_ok. unfold disks in *. cbn [map flat_map].
    rewrite opens_app, map_app, rev_app_distr. split.
    + intros (b1 & H1 & H2). apply tlv_spec in H1 as (O & M & ->).
      apply IH in H2 as (O2 & M2 & ->). split; auto.
      split; [intros c [<-|Hc]; auto|]. rewrite <- !app_assoc. reflexivity.
    + intros ((O & O2) & M & ->). eexists. split; [apply tlv_spec|].
      * split; [exact O|]. split; [apply M; now left|reflexivity].
      * apply IH. split; auto. split; [intros c Hc; apply M; now right|].
        rewrite <- !app_assoc. reflexivity.
Qed.

(** What the checks of the builder mean. *)

Lemma as_i16_small n : Z.of_nat n < 32768 -> as_i16 n = Z.of_nat n.
Proof. intros H. unfold as_i16. rewrite Z.mod_small; lia. Qed.

Lemma new_spec n k f :
  (exists p, PrimeSW_Model.new PrimeSW_Model.Release n k f = Some p) <->
  prime n /\ n <= 215 /\ 1 < k <= n /\ 0 < f < k.
Proof.
  unfold PrimeSW_Model.new. destruct (PrimeS_Proofs2.is_prime_spec n) as (b & -> & Hb).
  destruct b.
  - destruct (((n <=? 215) && ((1 <? k) && (k <=? n)) && ((0 <? f) && (f <? k)))%bool) eqn:E.
    + split.
      * intros _. split; [now apply Hb|lia].
      * intros _. unfold PrimeSW_Model.obind, PrimeSW_Model.ar. cbn. eauto.
    + split; [intros [p H]; discriminate|]. intros (_ & H). lia.
  - split; [intros [p H]; discriminate|]. intros (H & _). apply Hb in H. discriminate.
Qed.

Definition like (d e : text) : Prop :=
  option_map dev_size (w d) = option_map dev_size (w e) /\
  option_map dev_zone (w d) = option_map dev_zone (w e).

Lemma shape_like d e : w d <> None -> w e <> None ->
  (same_shape (shape w [d]) (shape w [e]) = true <-> like d e).
Proof.
  intros Hd He. unfold same_shape, shape, like.
  destruct (w d) as [a|]; [|congruence]. destruct (w e) as [b|]; [|congruence].
  cbn. split; [intros H; split; f_equal; lia|]. intros [[= ->] [= ->]].
  now rewrite !Z.eqb_refl.
Qed.

Lemma shape_cons d m : shape w (d :: m) = shape w [d].
Proof. reflexivity. Qed.

Lemma cluster_ok_spec c :
  (forall d, In d (concat (cl_mirrors c)) -> w d <> None) ->
  Z.of_nat (length (cl_mirrors c)) < 32768 ->
  (cluster_ok c <->
   good_geometry (Z.of_nat (length (cl_mirrors c))) (cl_k c) (cl_f c) /\
   (forall m, In m (cl_mirrors c) -> m <> []) /\
   (forall d e, In d (concat (cl_mirrors c)) -> In e (concat (cl_mirrors c)) -> like d e)).
Proof.
  destruct c as [k f ms]. cbn [cl_k cl_f cl_mirrors]. intros Ex Hn.
  assert (Exm : forall m d, In m ms -> In d m -> w d <> None).
  { intros m d Hm Hd. apply Ex. apply in_concat. eauto. }
  assert (MO : forall m, In m ms -> (mirror_ok w m = true <->
            m <> [] /\ forall d e, In d m -> In e m -> like d e)).
  { intros m Hm. destruct m as [|d0 m]; [cbn; split; [discriminate|intros [H _]; congruence]|].
    unfold mirror_ok. rewrite forallb_forall. split.
    - intros H. split; [discriminate|].
      assert (H0 : forall d, In d (d0 :: m) -> like d0 d).
      { intros d Hd. apply shape_like; [apply (Exm (d0 :: m)); cbn; auto|apply (Exm (d0 :: m)); auto|].
        specialize (H d Hd). now rewrite shape_cons in H. }
      intros d e Hd He. destruct (H0 d Hd) as [A B], (H0 e He) as [A' B'].
      split; congruence.
    - intros [_ H] d Hd. rewrite shape_cons. apply shape_like; auto.
      + apply (Exm (d0 :: m)); cbn; auto.
      + apply (Exm (d0 :: m)); auto.
      + apply H; cbn; auto. }
  unfold cluster_ok. cbn [cl_k cl_f cl_mirrors].
  assert (Across : (forall m, In m ms -> m <> []) ->
    (forall m, In m ms -> forall d e, In d m -> In e m -> like d e) ->
    match ms with m0 :: _ => forallb (fun m => same_shape (shape w m0) (shape w m)) ms
                | [] => false end = true <->
    ms <> [] /\ forall d e, In d (concat ms) -> In e (concat ms) -> like d e).
  { intros Ne In1. destruct ms as [|m0 ms']; [split; [discriminate|intros [H _]; congruence]|].
    rewrite forallb_forall.
    destruct m0 as [|d0 m0]; [exfalso; apply (Ne []); [now left|reflexivity]|].
    split.
    - intros H. split; [discriminate|].
      assert (H0 : forall d, In d (concat ((d0 :: m0) :: ms')) -> like d0 d).
      { intros d Hd. apply in_concat in Hd as (m & Hm & Hd).
        specialize (H m Hm). destruct m as [|d1 m1]; [destruct Hd|].
        rewrite (shape_cons d0 m0), (shape_cons d1 m1) in H.
        apply shape_like in H.
        - destruct (In1 _ Hm d1 d) as [A B]; [now left|auto|]. destruct H as [A' B'].
          split; congruence.
        - apply (Exm (d0 :: m0)); cbn; auto.
        - apply (Exm (d1 :: m1)); cbn; auto. }
      intros d e Hd He. destruct (H0 d Hd) as [A B], (H0 e He) as [A' B'].
      split; congruence.
    - intros [_ H] m Hm. destruct m as [|d1 m1]; [exfalso; now apply (Ne [])|].
      rewrite (shape_cons d0 m0), (shape_cons d1 m1). apply shape_like.
      + apply (Exm (d0 :: m0)); cbn; auto.
      + apply (Exm (d1 :: m1)); cbn; auto.
      + apply H; [cbn; auto|]. apply in_concat. exists (d1 :: m1). cbn; auto. }
  assert (Same : (forall m, In m ms -> mirror_ok w m = true) <->
     (forall m, In m ms -> m <> []) /\
     (forall m, In m ms -> forall d e, In d m -> In e m -> like d e)).
  { split.
    - intros H. split; intros m Hm; apply (proj1 (MO m Hm) (H m Hm)).
    - intros [A B] m Hm. apply (proj2 (MO m Hm)). split; [now apply A|exact (B m Hm)]. }
  rewrite Same. unfold good_geometry.
  assert (N1 : prime (Z.of_nat (length ms)) -> length ms <> 1%nat).
  { intros P E. rewrite E in P. destruct P. lia. }
  assert (NewS := new_spec (Z.of_nat (length ms)) k f).
  assert (RO : raid_ok w k f ms = true <->
     (length ms = 1%nat /\ k = 1 /\ f = 0) \/
     (length ms <> 1%nat /\ (exists p, PrimeSW_Model.new PrimeSW_Model.Release (Z.of_nat (length ms)) k f = Some p) /\
      match ms with m0 :: _ => forallb (fun m => same_shape (shape w m0) (shape w m)) ms
                  | [] => false end = true)).
  { unfold raid_ok. rewrite (as_i16_small _ Hn).
    destruct ms as [|m0 [|m1 r]].
    - split; [|intros [(H & _)|(_ & _ & H)]; discriminate].
      destruct (PrimeSW_Model.new _ _ _ _); discriminate.
    - split; [intros H; left; cbn [length]; lia|].
      intros [(_ & -> & ->)|(H & _)]; [reflexivity|cbn in H; congruence].
    - destruct (PrimeSW_Model.new PrimeSW_Model.Release (Z.of_nat (length (m0 :: m1 :: r))) k f) as [p|].
      + split; [intros H; right; split; [cbn; lia|]; split; eauto|].
        intros [(H & _)|(_ & _ & H)]; [cbn in H; lia|exact H].
      + split; [discriminate|]. intros [(H & _)|(_ & (p & H) & _)]; [cbn in H; lia|discriminate]. }
  rewrite RO, NewS. split.
  - intros ((A & B) & [(L & -> & ->)|(L & P & F)]).
    + split; [left; lia|]. split; auto. destruct ms as [|m0 [|m1 r]]; try discriminate.
      cbn [concat]. rewrite app_nil_r. apply B. now left.
    + split; [right; exact P|]. split; auto. apply (Across A B) in F. apply F.
  - intros (G & A & B).
    assert (B' : forall m, In m ms -> forall d e, In d m -> In e m -> like d e).
    { intros m Hm d e Hd He. apply B; apply in_concat; eauto. }
    split; [auto|]. destruct G as [(L & -> & ->)|P].
    + left. split; auto. lia.
    + right. split; [apply N1; apply P|]. split; auto. apply (Across A B').
      split; auto. intros ->. destruct P as (P & _). destruct P. cbn in *. lia.
Qed.
End Build.

Lemma opens_distinct w ds : opens w ds [] <->
  (forall d, In d ds -> w d <> None) /\ NoDup (map (fun d => option_map dev_id (w d)) ds).
Proof.
  assert (E : (forall d, In d ds -> w d <> None) ->
              map (fun d => option_map dev_id (w d)) ds = map Some (map (id_of w) ds)).
  { intros H. rewrite map_map. apply map_ext_in. intros d Hd. specialize (H d Hd).
    unfold id_of. destruct (w d); [reflexivity|congruence]. }
  assert (S : forall l : list Z, NoDup (map Some l) <-> NoDup l).
  { induction l as [|x l IH]; cbn; [split; constructor|].
    rewrite !NoDup_cons_iff, IH, in_map_iff. split; intros [A B]; split; auto.
    - intros Hx. apply A. exists x. auto.
    - intros (y & [= ->] & Hy). auto. }
  split.
  - intros (A & B & _). split; auto. rewrite E by auto. now apply S.
  - intros (A & B). split; auto. rewrite E in B by auto. apply S in B. split; auto.
Qed.

(** * Theorems *)

(** The command makes exactly the pools that are described and possible. *)
Theorem C101_makes : forall w args cs, not_huge cs ->
  (made (create w args) = Ok cs <->
   exists ts a, lex Between (join args) = Some ts /\ g_pool ts a /\
                cs = map meaning a /\ possible w cs).
Proof.
  intros w args cs NH.
  assert (P : forall a, cs = map meaning a ->
    (build w (mkB [] [] []) a = Ok (mkB (rev (map (id_of w) (disks cs)) ++ []) [] cs) <-> possible w cs)).
  { intros a ->. rewrite build_spec. rewrite opens_distinct. split.
    - intros ((A & B) & C & _).
      assert (D : forall c, In c (map meaning a) ->
        good_geometry (Z.of_nat (length (cl_mirrors c))) (cl_k c) (cl_f c) /\
        (forall m, In m (cl_mirrors c) -> m <> []) /\
        (forall d e, In d (concat (cl_mirrors c)) -> In e (concat (cl_mirrors c)) -> like w d e)).
      { intros c Hc. apply cluster_ok_spec; auto.
        intros d Hd. apply A. unfold disks. apply in_flat_map. eauto. }
      split; auto.
      + intros c Hc. apply D, Hc.
      + intros c m Hc. apply D, Hc.
      + intros c d e Hc. apply D, Hc.
    - intros [A B C D E]. split; auto. split; [|reflexivity].
      intros c Hc. apply cluster_ok_spec; auto.
      { intros d Hd. apply A. unfold disks. apply in_flat_map. eauto. }
      split; [auto|]. split; [intros m; now apply D|].
      intros d e Hd He. exact (E c d e Hc Hd He). }
  unfold create. destruct (lex Between (join args)) as [ts|] eqn:EL.
  2:{ split; [discriminate|]. intros (ts & a & H & _). discriminate. }
  destruct (parse ts) as [a|] eqn:EP.
  2:{ split; [discriminate|]. intros (ts' & a & [= <-] & G & _).
      apply C101_grammar in G. congruence. }
  split.
  - destruct (build w (mkB [] [] []) a) as [b| |] eqn:EB; try discriminate.
    cbn [made]. intros [= <-]. exists ts, a. split; auto.
    split; [now apply C101_grammar|].
    pose proof EB as EB'. apply build_spec in EB' as (_ & _ & Eb).
    assert (Ec : clusters b = map meaning a) by (rewrite Eb; reflexivity).
    split; auto. apply (P a Ec). rewrite EB, Eb. reflexivity.
  - intros (ts' & a' & [= <-] & G & Ec & Po). apply C101_grammar in G.
    rewrite EP in G. injection G as <-. apply (P a Ec) in Po. rewrite Po. reflexivity.
Qed.

(** If no pool is made, no device has been written to; if one is, exactly its
    devices. *)
Theorem C101_written : forall w args,
  match made (create w args) with
  | Ok cs => written (create w args) = disks cs
  | _ => written (create w args) = []
  end.
Proof.
  intros w args. unfold create. destruct (lex _ _); [|reflexivity].
  destruct (parse _); [|reflexivity]. destruct (build _ _ _); reflexivity.
Qed.

(** No device is written to that was not named in the arguments, if these
    are single words. *)
Theorem C101_only_named : forall w args ts d,
  Forall2 arg_means args ts -> In d (written (create w args)) ->
  In d args /\ device_name d.
Proof.
  intros w args ts d F Hd.
  assert (T : forall p, In (Path p) ts -> In p args /\ device_name p).
  { clear - F. induction F as [|a t args ts H F IH]; intros p []; cbn.
    - subst. inversion H; subst. auto.
    - destruct (IH p H0). auto. }
  apply T. clear T. pose proof (C101_words _ _ F) as L.
  pose proof (C101_written w args) as W.
  destruct (made (create w args)) as [cs| |] eqn:M; rewrite W in Hd; try destruct Hd.
  unfold create in M. rewrite L in M. destruct (parse ts) as [a|] eqn:P; [|discriminate].
  apply C101_grammar in P.
  destruct (build w (mkB [] [] []) a) as [b| |] eqn:B; try discriminate.
  injection M as <-. apply build_spec in B as (_ & _ & ->). cbn [clusters app] in Hd.
  clear - P Hd. unfold disks in Hd. apply in_flat_map in Hd as (c & Hc & Hd).
  apply in_map_iff in Hc as (t & <- & Ht).
  assert (PP : forall l ps, plus g_path l ps -> In d ps -> In (Path d) l).
  { intros l ps H Hin. apply plus_path in H as [_ ->]. now apply in_map. }
  assert (PM : forall l ms, plus g_mirror l ms -> In d (concat ms) -> In (Path d) l).
  { intros l ms H Hin. apply plus_mirror in H as (_ & _ & ->).
    apply in_concat in Hin as (m & Hm & Hin). apply in_flat_map. exists m. split; auto.
    right. now apply in_map. }
  destruct P as [ts ps H|ts ms H|ts rs H].
  - apply in_map_iff in Ht as (p & <- & Hp). cbn in Hd. destruct Hd as [->|[]]. eauto.
  - apply in_map_iff in Ht as (m & <- & Hm). cbn in Hd. rewrite app_nil_r in Hd.
    apply (PM _ _ H). apply in_concat. eauto.
  - assert (PR : forall l, g_raid l t -> In (Path d) l).
    { intros l G. destruct G as [a b l k f ps Ga Gb Pp|a b l k f ms Ga Gb Pm];
        cbn [meaning cl_mirrors] in Hd; rewrite map_map in Hd; right;
        apply in_or_app; right; apply in_or_app; right.
      - apply (PP _ _ Pp). apply in_concat in Hd as (x & Hx & Hd).
        apply in_map_iff in Hx as (y & <- & Hy). cbn in Hd. destruct Hd as [->|[]]; auto.
      - apply (PM _ _ Pm). cbn [child_disks] in Hd. now rewrite map_id in Hd. }
    induction H as [l a G|l1 a l2 l G _ IH].
    + destruct Ht as [->|[]]. auto.
    + apply in_or_app. destruct Ht as [->|Ht]; auto.
Qed.

(** A description has one reading. *)
Theorem C101_unambiguous : forall ts a b, g_pool ts a -> g_pool ts b -> a = b.
Proof. intros ts a b A B. apply C101_grammar in A, B. congruence. Qed.

Lemma numeral n : 0 <= n -> exists ds, num_word ds /\ decimal ds = n.
Proof.
  intros H. pattern n. revert n H. apply Zlt_0_ind. intros n IH H.
  destruct (Z.ltb_spec n 10) as [L|L].
  - exists [n + 48]. split.
    + split; [discriminate|]. intros x [<-|[]]. unfold is_digit. lia.
    + cbn. lia.
  - destruct (IH (n / 10)) as (ds & [Nn D] & E).
    { split; [apply Z.div_pos; lia|apply Z.div_lt; lia]. }
    exists (ds ++ [n mod 10 + 48]). pose proof (Z.mod_pos_bound n 10).
    split.
    + split; [destruct ds; discriminate|]. intros x Hx.
      apply in_app_or in Hx as [Hx|[<-|[]]]; auto. unfold is_digit. lia.
    + assert (K : forall l c, decimal (l ++ [c]) = 10 * decimal l + (c - 48)).
      { induction l as [|y l IHl]; intros c; [cbn; lia|].
        cbn [app decimal]. rewrite IHl, app_length. cbn [length].
        rewrite Nat.add_1_r, Nat2Z.inj_succ, Z.pow_succ_r by lia. ring. }
      rewrite K, E. pose proof (Z.div_mod n 10). lia.
Qed.

(** Every possible layout, whatever its mixture of single disks, mirrors and
    RAIDs, can be described. *)
Theorem C101_every_layout : forall w cs,
  cs <> [] -> possible w cs -> (forall d, In d (disks cs) -> device_name d) ->
  exists args ts, Forall2 arg_means args ts /\ made (create w args) = Ok cs.
Proof.
  intros w cs Ne Po Nm.
  assert (NH : not_huge cs).
  { intros c Hc. destruct (p_geometry w cs Po c Hc) as [(-> & _)|(_ & H & _)]; lia. }
  assert (K : forall l, l <> [] -> (forall c, In c l -> In c cs) ->
    exists args ts, Forall2 arg_means args ts /\
      plus g_raid ts (map (fun c => TRaid (cl_k c) (cl_f c) (map RMirror (cl_mirrors c))) l)).
  { assert (One : forall c, In c cs -> exists args ts, Forall2 arg_means args ts /\
              g_raid ts (TRaid (cl_k c) (cl_f c) (map RMirror (cl_mirrors c)))).
    { intros c Hc. pose proof (p_geometry w cs Po c Hc) as G.
      assert (Hk : 0 <= cl_k c <= 215 /\ 0 <= cl_f c <= 215) by (unfold good_geometry in G; lia).
      destruct (numeral (cl_k c)) as (dk & Wk & Ek); [lia|].
      destruct (numeral (cl_f c)) as (df & Wf & Ef); [lia|].
      exists (str "raid" :: dk :: df :: flat_map (fun m => str "mirror" :: m) (cl_mirrors c)).
      exists (KRaid :: [Num dk] ++ [Num df] ++ flat_map mirror_tokens (cl_mirrors c)).
      split.
      - constructor; [constructor|]. cbn [app]. constructor; [now constructor|].
        constructor; [now constructor|].
        assert (Nm' : forall m d, In m (cl_mirrors c) -> In d m -> device_name d).
        { intros m d Hm Hd. apply Nm. unfold disks. apply in_flat_map. exists c.
          split; auto. apply in_concat. eauto. }
        clear - Nm'. induction (cl_mirrors c) as [|m ms IH]; [constructor|].
        cbn [flat_map mirror_tokens app]. constructor; [constructor|].
        apply Forall2_app; [|apply IH; intros; eapply Nm'; [right|]; eauto].
        assert (H : forall d, In d m -> device_name d) by (intros; eapply Nm'; [left|]; eauto).
        clear - H. induction m as [|d m IH]; constructor.
        + constructor. apply H. now left.
        + apply IH. intros x Hx. apply H. now right.
      - apply (g_raid_mirrors [Num dk] [Num df]).
        + rewrite <- Ek. constructor. lia.
        + rewrite <- Ef. constructor. lia.
        + apply plus_mirror. split; [|split; auto].
          * intros E. rewrite E in G. cbn in G. destruct G as [G|(P & _)]; [lia|].
            destruct P. lia.
          * intros m Hm. apply (p_mirrors w cs Po c m Hc Hm). }
    induction l as [|c l IH]; intros N Hl; [congruence|].
    destruct (One c (Hl c (or_introl eq_refl))) as (a1 & t1 & F1 & G1).
    destruct l as [|c' l].
    - exists a1, t1. split; auto. now constructor.
    - destruct IH as (a2 & t2 & F2 & G2); [discriminate|intros; apply Hl; now right|].
      exists (a1 ++ a2), (t1 ++ t2). split; [now apply Forall2_app|].
      cbn [map]. now apply plus_more. }
  destruct (K cs Ne (fun c H => H)) as (args & ts & F & G).
  exists args, ts. split; auto. apply C101_makes; auto.
  exists ts. eexists. split; [now apply C101_words|]. split; [apply g_pool_raids; exact G|].
  split; auto. rewrite map_map. rewrite <- map_id at 1. apply map_ext_in.
  intros [k f ms] _. cbn. f_equal. rewrite map_map. cbn. symmetry. apply map_id.
Qed.

(** Descriptions that name different devices never hang. *)
Theorem C101_ends : forall w args ts a,
  lex Between (join args) = Some ts -> g_pool ts a ->
  (forall d, In d (disks (map meaning a)) -> w d <> None) ->
  NoDup (map (fun d => option_map dev_id (w d)) (disks (map meaning a))) ->
  made (create w args) <> Hangs.
Proof.
  intros w args ts a L G Ex Nd. unfold create. rewrite L.
  apply C101_grammar in G. rewrite G.
  assert (O : opens w (disks (map meaning a)) []) by (apply opens_distinct; auto).
  clear - O.
  assert (CM : forall b ds, opens w ds (opened b) -> create_mirror w b ds <> Hangs).
  { intros b ds H. unfold create_mirror.
    rewrite (proj2 (open_all_spec w ds (opened b) _) (conj H eq_refl)).
    destruct (mirror_ok w ds); discriminate. }
  assert (CC : forall vs b, opens w (concat (map child_disks vs)) (opened b) ->
            create_children w b vs <> Hangs).
  { induction vs as [|v vs IH]; intros b H; [discriminate|].
    cbn [map concat] in H. apply opens_app in H as [H1 H2].
    assert (E : create_children w b (v :: vs) =
                bind (create_mirror w b (child_disks v)) (fun b' => create_children w b' vs))
      by (destruct v; reflexivity).
    rewrite E. destruct (create_mirror w b (child_disks v)) as [b1| |] eqn:M; cbn [bind];
      [|discriminate|now apply CM in M].
    apply create_mirror_spec in M as (_ & _ & ->). apply IH. exact H2. }
  assert (CL : forall b k f, create_cluster w b k f <> Hangs).
  { intros b k f. unfold create_cluster. destruct (raid_ok _ _ _ _); discriminate. }
  assert (B : forall a op cs, opens w (disks (map meaning a)) op ->
            build w (mkB op [] cs) a <> Hangs).
  { clear a O. induction a as [|t a IH]; intros op cs H; [discriminate|].
    cbn [map] in H. unfold disks in H. cbn [flat_map] in H. apply opens_app in H as [H1 H2].
    cbn [build].
    match goal with |- bind ?x _ <> _ => assert (X : x <> Hangs); [|destruct x as [b1| |] eqn:E] end.
    - destruct t as [k f vs|ds|d]; cbn [meaning cl_mirrors concat] in H1; rewrite ?app_nil_r in H1.
      + destruct (create_children w (mkB op [] cs) vs) as [b2| |] eqn:E2; cbn [bind];
          [apply CL|discriminate|]. now apply CC in E2.
      + destruct (create_mirror w (mkB op [] cs) ds) as [b2| |] eqn:E2; cbn [bind];
          [apply CL|discriminate|]. now apply CM in E2.
      + destruct (create_mirror w (mkB op [] cs) [d]) as [b2| |] eqn:E2; cbn [bind];
          [apply CL|discriminate|]. now apply CM in E2.
    - apply tlv_spec in E as (_ & _ & ->). cbn [bind]. apply IH. exact H2.
    - discriminate.
    - congruence. }
  specialize (B a [] [] O). destruct (build w (mkB [] [] []) a); cbn; congruence.
Qed.

(** * Where it goes wrong *)

Definition disk_world (l : list (text * dev)) : world :=
  fun d => match find (fun p => text_eqb (fst p) d) l with Some p => Some (snd p) | None => None end.

(** An argument with a space in it is two names: devices are overwritten that
    no argument names, though the named one exists. *)
Theorem C101_space_refuted : exists w a,
  w a <> None /\
  made (create w [a]) = Ok [mkCl 1 0 [[str "my"]]; mkCl 1 0 [[str "disk"]]] /\
  written (create w [a]) = [str "my"; str "disk"] /\
  ~ In (str "my") [a] /\ ~ In (str "disk") [a].
Proof.
  exists (disk_world [(str "my disk", mkDev 1 100 10); (str "my", mkDev 2 100 10);
                      (str "disk", mkDev 3 100 10)]), (str "my disk").
  split; [discriminate|]. split; [vm_compute; reflexivity|]. split; [vm_compute; reflexivity|].
  split; intros [H|[]]; vm_compute in H; discriminate H.
Qed.

(** A device named twice: the command neither makes a pool nor ends. *)
Theorem C101_hangs_refuted : exists w args,
  (forall a, In a args -> w a <> None) /\ made (create w args) = Hangs.
Proof.
  exists (disk_world [(str "da0", mkDev 1 100 10)]), [str "da0"; str "da0"].
  split; [|vm_compute; reflexivity].
  intros a [<-|[<-|[]]]; discriminate.
Qed.

(** * Examples *)

Definition six : world := disk_world
  [(str "da0", mkDev 0 1000 100); (str "da1", mkDev 1 1000 100); (str "da2", mkDev 2 1000 100);
   (str "da3", mkDev 3 1000 100); (str "da4", mkDev 4 1000 100); (str "da5", mkDev 5 1000 100)].

(** The "raid51" of the unit tests is made as described ... *)
Example C101_ex :
  let cs := [mkCl 3 1 [[str "da0"; str "da1"]; [str "da2"; str "da3"]; [str "da4"; str "da5"]]] in
  made (create six [str "raid"; str "3"; str "1"; str "mirror"; str "da0"; str "da1";
                    str "mirror"; str "da2"; str "da3"; str "mirror"; str "da4"; str "da5"]) = Ok cs
  /\ possible six cs /\ (forall d, In d (disks cs) -> device_name d).
Proof.
  assert (M : made (create six [str "raid"; str "3"; str "1"; str "mirror"; str "da0"; str "da1";
                    str "mirror"; str "da2"; str "da3"; str "mirror"; str "da4"; str "da5"])
    = Ok [mkCl 3 1 [[str "da0"; str "da1"]; [str "da2"; str "da3"]; [str "da4"; str "da5"]]])
    by (vm_compute; reflexivity).
  split; [exact M|]. split.
  - apply C101_makes in M; [|intros c [<-|[]]; reflexivity].
    destruct M as (ts & a & _ & _ & _ & P). exact P.
  - intros d H. cbn in H.
    repeat (destruct H as [<-|H]; [split; [apply name_word_b; reflexivity|intros [E|E]; discriminate E]|]).
    destruct H.
Qed.

(** ... and four disks are no RAID: nothing is written. *)
Example C101_ex_four :
  create six [str "raid"; str "3"; str "1"; str "da0"; str "da1"; str "da2"; str "da3"]
  = mkOut Panics [].
Proof. vm_compute. reflexivity. Qed.

Print Assumptions C101_grammar.
Print Assumptions C101_words.
Print Assumptions C101_makes.
Print Assumptions C101_written.
Print Assumptions C101_only_named.
Print Assumptions C101_unambiguous.
Print Assumptions C101_every_layout.
Print Assumptions C101_ends.
Print Assumptions C101_space_refuted.
Print Assumptions C101_hangs_refuted.
