(** Rebuilding the missing chunks of one stripe: proofs about [read_at_reconstruction]. *)
From Verif Require Import Common FSM_Model PrimeS_Model Codec_Model Codec_Proofs Codec_GF Codec_Props Raid_Model.

(** * Lists *)
Definition sub {A} (o l : Z) (s : list A) : list A := ztake l (zdrop o s).
Lemma ztake_add {A} a b (l : list A) : 0 <= a -> 0 <= b -> ztake (a + b) l = ztake a l ++ ztake b (zdrop a l).
Proof.
  intros Ha Hb. unfold ztake, zdrop. replace (Z.to_nat (a + b)) with (Z.to_nat a + Z.to_nat b)%nat by lia.
  generalize (Z.to_nat a) as x, (Z.to_nat b) as y. clear. intros x y. revert l. induction x as [|x IH]; intros [|h l]; cbn; auto; [now destruct y|now rewrite IH].
Qed.
Lemma map_ztake {A B} (g : A -> B) n l : map g (ztake n l) = ztake n (map g l).
Proof. unfold ztake. symmetry. apply firstn_map. Qed.
Lemma map_zdrop {A B} (g : A -> B) n l : map g (zdrop n l) = zdrop n (map g l).
Proof. unfold zdrop. symmetry. apply skipn_map. Qed.
Lemma map_sub {A B} (g : A -> B) o n l : map g (sub o n l) = sub o n (map g l).
Proof. unfold sub. now rewrite map_ztake, map_zdrop. Qed.
Lemma in_sub {A} (x : A) o n l : In x (sub o n l) -> In x l.
Proof. unfold sub, ztake, zdrop. intros H. rewrite <- (firstn_skipn (Z.to_nat o) l). apply in_or_app. right. rewrite <- (firstn_skipn (Z.to_nat n)). apply in_or_app. now left. Qed.
Lemma NoDup_app_iff {A} (a b : list A) : NoDup (a ++ b) <-> NoDup a /\ NoDup b /\ (forall x, In x a -> In x b -> False).
Proof.
  induction a as [|x a IH]; cbn [app].
  - split; [intros H; repeat split; [constructor|exact H|intros ? []]|tauto].
  - split.
    + intros H. inversion H as [|? ? H1 H2]; subst. apply IH in H2. destruct H2 as (H2 & H3 & H4). rewrite in_app_iff in H1. repeat split; [constructor; tauto|exact H3|].
      intros y [<-|Hy] Hb; [tauto|eauto].
    + intros (H1 & H2 & H3). inversion H1 as [|? ? H4 H5]; subst. constructor.
      * rewrite in_app_iff. intros [H|H]; [tauto|]. apply (H3 x); [now left|exact H].
      * apply IH. repeat split; [exact H5|exact H2|]. intros y Hy. apply H3. now right.
Qed.
Lemma NoDup_sub {A} o n (l : list A) : NoDup l -> NoDup (sub o n l).
Proof.
  intros H. unfold sub, ztake, zdrop. rewrite <- (firstn_skipn (Z.to_nat o) l) in H. apply NoDup_app_iff in H. destruct H as (_ & H & _).
  rewrite <- (firstn_skipn (Z.to_nat n) (skipn _ l)) in H. now apply NoDup_app_iff in H.
Qed.
Lemma zlen_sub {A} o n (l : list A) : 0 <= o -> 0 <= n -> o + n <= zlen l -> zlen (sub o n l) = n.
Proof. intros. unfold sub. rewrite zlen_take; [reflexivity|]. rewrite zlen_drop by lia. lia. Qed.
Lemma sub_app_l {A} o n (a b : list A) : 0 <= o -> 0 <= n -> o + n <= zlen a -> sub o n (a ++ b) = sub o n a.
Proof. intros. unfold sub. rewrite zdrop_app by lia. rewrite ztake_app by lia. rewrite (ztake_0 (n - _)) by (rewrite zlen_drop by lia; lia). apply app_nil_r. Qed.
Lemma sub_app_r {A} o n (a b : list A) : zlen a <= o -> 0 <= n -> sub o n (a ++ b) = sub (o - zlen a) n b.
Proof. intros. pose proof (zlen_nonneg a). unfold sub. rewrite zdrop_app by lia. rewrite (zdrop_all o a) by lia. reflexivity. Qed.
Lemma sub_sub {A} o n o' n' (l : list A) : 0 <= o -> 0 <= o' -> 0 <= n' -> o' + n' <= n -> sub o' n' (sub o n l) = sub (o + o') n' l.
Proof.
  intros. unfold sub. rewrite (ztake_zdrop_comm n' o') by lia. rewrite ztake_ztake by lia. rewrite Z.min_l by lia. rewrite <- ztake_zdrop_comm by lia. rewrite zdrop_zdrop by lia. do 2 f_equal. lia.
Qed.
Lemma sub_all {A} n (l : list A) : zlen l <= n -> sub 0 n l = l.
Proof. intros H. unfold sub. rewrite zdrop_0 by lia. now apply ztake_all. Qed.
Lemma sub_nil {A} o n : sub o n (@nil A) = [].
Proof. unfold sub, ztake, zdrop. rewrite skipn_nil. apply firstn_nil. Qed.
Lemma app_inj {A} (a b c d : list A) : length a = length c -> a ++ b = c ++ d -> a = c /\ b = d.
Proof. revert c. induction a as [|x a IH]; intros [|y c] L E; cbn in *; try lia; [auto|]. injection E as -> E. injection L as L. destruct (IH _ L E) as [-> ->]. auto. Qed.
Lemma zrange_sub lo hi o n : 0 <= o -> 0 <= n -> lo + o + n <= hi -> sub o n (zrange lo hi) = zrange (lo + o) (lo + o + n).
Proof.
  intros. rewrite (zrange_split lo (lo + o) hi) by lia. rewrite (zrange_split (lo + o) (lo + o + n) hi) by lia.
  assert (Z1 : zlen (zrange lo (lo + o)) = o) by (unfold zlen; rewrite zrange_length; lia). assert (Z2 : zlen (zrange (lo + o) (lo + o + n)) = n) by (unfold zlen; rewrite zrange_length; lia).
  rewrite sub_app_r by lia. rewrite Z1, Z.sub_diag. rewrite sub_app_l by lia. apply sub_all. lia.
Qed.
Lemma zlen_zrange lo hi : lo <= hi -> zlen (zrange lo hi) = hi - lo.
Proof. intros. unfold zlen. rewrite zrange_length. lia. Qed.
Lemma map_combine3 {A B} (g : Z -> A) (h : Z -> B) R : combine R (combine (map g R) (map h R)) = map (fun i => (i, (g i, h i))) R.
Proof. induction R as [|x R IH]; cbn; congruence. Qed.
Lemma combine_map_r {A} (g : Z -> A) R : combine R (map g R) = map (fun i => (i, g i)) R.
Proof. induction R as [|x R IH]; cbn; congruence. Qed.
Lemma filter_map_comm {A B} (g : A -> B) p l : filter p (map g l) = map g (filter (fun x => p (g x)) l).
Proof. induction l as [|x l IH]; cbn; [auto|]. destruct (p (g x)); cbn; congruence. Qed.
Lemma zrange_seq n : map Z.of_nat (seq 0 n) = zrange 0 (Z.of_nat n).
Proof.
  unfold zrange. replace (Z.to_nat (Z.of_nat n - 0)) with n by lia.
  assert (G : forall n s, map Z.of_nat (seq s n) = zseq (Z.of_nat s) n); [|apply (G n O)].
  clear. induction n as [|n IH]; intros s; [reflexivity|]. cbn [seq map zseq]. f_equal. rewrite IH. f_equal. lia.
Qed.
Lemma NoDup_map_filter {A} p (l : list A) : NoDup l -> NoDup (filter p l).
Proof. apply NoDup_filter. Qed.

(** * Memory *)
Lemma addr_eqb_eq a b : addr_eqb a b = true <-> a = b.
Proof. unfold addr_eqb. destruct a as [a1 a2], b as [b1 b2]. cbn. rewrite andb_true_iff, !Z.eqb_eq. split; [intros [-> ->]; auto|intros E; now injection E as -> ->]. Qed.
Lemma put_other : forall cs vs m a, ~ In a cs -> put m cs vs a = m a.
Proof.
  induction cs as [|c cs IH]; intros [|v vs] m a H; cbn [put]; auto. rewrite IH by (intros X; apply H; now right).
  destruct (addr_eqb a c) eqn:E; [|reflexivity]. apply addr_eqb_eq in E. subst. exfalso. apply H. now left.
Qed.
Lemma get_put_same : forall cs vs m, NoDup cs -> length vs = length cs -> get (put m cs vs) cs = vs.
Proof.
  induction cs as [|c cs IH]; intros [|v vs] m N E; cbn in E; try lia; [reflexivity|]. inversion N as [|? ? N1 N2]; subst. cbn [put get map]. f_equal.
  - rewrite put_other by exact N1. assert (E1 : addr_eqb c c = true) by now apply addr_eqb_eq. now rewrite E1.
  - apply IH; [exact N2|lia].
Qed.
Lemma get_ext m m' cs : (forall a, In a cs -> m a = m' a) -> get m cs = get m' cs.
Proof. intros H. unfold get. now apply map_ext_in. Qed.
Lemma get_put_other m cs vs cs' : (forall a, In a cs' -> ~ In a cs) -> get (put m cs vs) cs' = get m cs'.
Proof. intros H. apply get_ext. intros a Ha. apply put_other. auto. Qed.
Lemma get_app m a b : get m (a ++ b) = get m a ++ get m b.
Proof. apply map_app. Qed.
Lemma get_sub m o n s : get m (sub o n s) = sub o n (get m s).
Proof. apply map_sub. Qed.
Lemma zlen_get m s : zlen (get m s) = zlen s.
Proof. apply zlen_map. Qed.
Lemma split_to_ok n s : 0 <= n <= zlen s -> split_to n s = Some (ztake n s, zdrop n s).
Proof. intros H. unfold split_to. rewrite (proj2 (Z.leb_le 0 n)), (proj2 (Z.leb_le n _)) by lia. reflexivity. Qed.

(** * Cutting a column into zones *)
Section Cut.
Context (B : Z) (HB : 0 < B).
(** a buffer of [n] LBAs *)
Definition lbas (s : slice) (n : Z) : Prop := zlen s = n * B.
Lemma lbas_nil s n : lbas s n -> is_nil s = (n =? 0).
Proof.
  unfold lbas. intros H. destruct s as [|x s]; cbn [is_nil].
  - change (zlen (@nil addr)) with 0 in H. symmetry. apply Z.eqb_eq. nia.
  - rewrite zlen_cons in H. pose proof (zlen_nonneg s). symmetry. apply Z.eqb_neq. nia.
Qed.
Lemma split_lbas s n a : lbas s n -> 0 <= a <= n -> split_to (a * B) s = Some (ztake (a * B) s, zdrop (a * B) s) /\ lbas (ztake (a * B) s) a /\ lbas (zdrop (a * B) s) (n - a).
Proof. unfold lbas. intros H1 H2. split; [apply split_to_ok; nia|]. split; [rewrite zlen_take; nia|rewrite zlen_drop; nia]. Qed.
Lemma mul_pos_ltb a : 0 <= a -> (0 <? a * B) = (0 <? a).
Proof. intros. destruct (Z.ltb_spec 0 a), (Z.ltb_spec 0 (a * B)); try reflexivity; nia. Qed.

Definition zones (c0 c1 c2 : Z) (s : slice) : slice * slice * slice := (sub 0 c0 s, sub c0 c1 s, sub (c0 + c1) c2 s).

(** the column is [x], in one piece *)
Lemma append_1 x p q n : lbas x n -> 0 <= p <= q -> q <= n -> p < n -> append_cols (p * B) ((q - p) * B) ((n - q) * B) [x] = Some (zones (p * B) ((q - p) * B) ((n - q) * B) x).
Proof.
  intros Lx Hp Hq Hpn. unfold append_cols. rewrite mul_pos_ltb by lia. unfold obind.
  assert (E : exists y, (if 0 <? p then split_to (p * B) x else Some ([], x)) = Some (sub 0 (p * B) x, y) /\ y = zdrop (p * B) x /\ lbas y (n - p)).
  { exists (zdrop (p * B) x). destruct (split_lbas x n p Lx ltac:(lia)) as (S1 & _ & S3). split; [|auto]. destruct (Z.ltb_spec 0 p).
    - rewrite S1. reflexivity.
    - assert (p = 0) by lia. subst p. unfold sub. rewrite ztake_0, zdrop_0 by lia. reflexivity. }
  destruct E as (y & -> & Ey & Ly). cbn [fst snd]. rewrite (lbas_nil y _ Ly). destruct (Z.eqb_spec (n - p) 0); [lia|]. cbn [fst snd].
  destruct (split_lbas y (n - p) (q - p) Ly ltac:(lia)) as (-> & _ & Lz). cbn [fst snd]. rewrite mul_pos_ltb by lia. unfold zones.
  assert (Em : ztake ((q - p) * B) y = sub (p * B) ((q - p) * B) x) by (rewrite Ey; reflexivity). rewrite Em.
  assert (Ez : zdrop ((q - p) * B) y = sub (p * B + (q - p) * B) ((n - q) * B) x).
  { rewrite Ey, zdrop_zdrop by nia. unfold sub. rewrite Z.add_comm. symmetry. apply ztake_all. rewrite zlen_drop by nia. unfold lbas in Lx. nia. }
  destruct (Z.ltb_spec 0 (n - q)).
  - rewrite (lbas_nil _ _ Lz). destruct (Z.eqb_spec (n - p - (q - p)) 0); [lia|]. now rewrite Ez.
  - do 2 f_equal. unfold sub. symmetry. apply ztake_0. nia.
Qed.
(** two pieces: the boundary is one of the two cuts *)
Lemma append_2 x y a b p q n : lbas x a -> lbas y b -> 0 < a -> 0 < b -> a + b = n -> 0 <= p <= q -> q <= n -> a = p \/ a = q -> 
  append_cols (p * B) ((q - p) * B) ((n - q) * B) [x; y] = Some (zones (p * B) ((q - p) * B) ((n - q) * B) (x ++ y)).
Proof.
  intros Lx Ly Ha Hb Hn Hp Hq Hc. unfold append_cols. rewrite mul_pos_ltb by lia. unfold obind, zones. unfold lbas in Lx, Ly.
  destruct (Z.eq_dec a p) as [->|Hap].
  - rewrite (proj2 (Z.ltb_lt 0 p)) by lia. destruct (split_lbas x p p Lx ltac:(lia)) as (-> & _ & L3). cbn [fst snd]. rewrite (lbas_nil _ _ L3), Z.sub_diag, Z.eqb_refl. cbn [fst snd].
    destruct (split_lbas y b (q - p) Ly ltac:(lia)) as (-> & _ & L4). cbn [fst snd]. rewrite mul_pos_ltb by lia.
    assert (E0 : ztake (p * B) x = sub 0 (p * B) (x ++ y)) by (rewrite sub_app_l by nia; unfold sub; now rewrite zdrop_0 by lia).
    assert (E1 : ztake ((q - p) * B) y = sub (p * B) ((q - p) * B) (x ++ y)) by (rewrite sub_app_r by nia; unfold sub; now rewrite zdrop_0 by nia).
    rewrite <- E0, <- E1. assert (E2 : sub (p * B + (q - p) * B) ((n - q) * B) (x ++ y) = zdrop ((q - p) * B) y).
    { rewrite sub_app_r by nia. unfold sub. rewrite ztake_all; [f_equal; nia|]. rewrite zlen_drop by nia. nia. }
    rewrite E2. destruct (Z.ltb_spec 0 (n - q)).
    + rewrite (lbas_nil _ _ L4). destruct (Z.eqb_spec (b - (q - p)) 0); [lia|]. reflexivity.
    + do 2 f_equal. symmetry. apply zdrop_all. nia.
  - assert (a = q) by lia. subst a.
    assert (E : exists z, (if 0 <? p then split_to (p * B) x else Some ([], x)) = Some (sub 0 (p * B) x, z) /\ z = zdrop (p * B) x /\ lbas z (q - p)).
    { exists (zdrop (p * B) x). destruct (split_lbas x q p Lx ltac:(lia)) as (S1 & _ & S3). split; [|auto]. destruct (Z.ltb_spec 0 p).
      - rewrite S1. reflexivity.
      - assert (p = 0) by lia. subst p. unfold sub. rewrite ztake_0, zdrop_0 by lia. reflexivity. }
    destruct E as (z & -> & Ez & Lz). cbn [fst snd]. rewrite (lbas_nil z _ Lz). destruct (Z.eqb_spec (q - p) 0); [lia|]. cbn [fst snd].
    destruct (split_lbas z (q - p) (q - p) Lz ltac:(lia)) as (-> & _ & L4). cbn [fst snd]. rewrite mul_pos_ltb by lia. rewrite (proj2 (Z.ltb_lt 0 (n - q))) by lia. rewrite (lbas_nil _ _ L4), Z.sub_diag, Z.eqb_refl.
    rewrite sub_app_l by nia. rewrite sub_app_l by nia. rewrite sub_app_r by nia. do 2 f_equal.
    + f_equal. rewrite Ez. reflexivity.
    + unfold sub. rewrite zdrop_0 by nia. symmetry. apply ztake_all. nia.
Qed.
(** three pieces: the boundaries are the two cuts *)
Lemma append_3 x y z p q n : lbas x p -> lbas y (q - p) -> lbas z (n - q) -> 0 < p < q -> q < n -> 
  append_cols (p * B) ((q - p) * B) ((n - q) * B) [x; y; z] = Some (zones (p * B) ((q - p) * B) ((n - q) * B) (x ++ y ++ z)).
Proof.
  intros Lx Ly Lz Hp Hq. unfold append_cols. rewrite mul_pos_ltb by lia. unfold obind, zones. rewrite (proj2 (Z.ltb_lt 0 p)) by lia.
  destruct (split_lbas x p p Lx ltac:(lia)) as (-> & _ & L3). cbn [fst snd]. rewrite (lbas_nil _ _ L3), Z.sub_diag, Z.eqb_refl. cbn [fst snd].
  destruct (split_lbas y (q - p) (q - p) Ly ltac:(lia)) as (-> & _ & L4). cbn [fst snd]. rewrite mul_pos_ltb by lia. rewrite (proj2 (Z.ltb_lt 0 (n - q))) by lia.
  rewrite (lbas_nil _ _ L4), Z.sub_diag, Z.eqb_refl. unfold lbas in *. do 2 f_equal; [f_equal|].
  - rewrite sub_app_l by nia. unfold sub. now rewrite zdrop_0 by lia.
  - rewrite sub_app_r by nia. rewrite Lx, Z.sub_diag. rewrite sub_app_l by nia. unfold sub. now rewrite zdrop_0 by lia.
  - rewrite sub_app_r by nia. rewrite sub_app_r by nia. unfold sub. rewrite zdrop_0 by nia. symmetry. apply ztake_all. nia.
Qed.
End Cut.

(** * Parity of part of the columns *)
Lemma nth_sub {A} o n (l : list A) d p : 0 <= o -> (p < Z.to_nat n)%nat -> nth p (sub o n l) d = nth (Z.to_nat o + p) l d.
Proof.
  intros Ho Hp. unfold sub, ztake, zdrop. revert l. generalize (Z.to_nat o) as a. induction a as [|a IH]; intros l; cbn [skipn Nat.add].
  - clear -Hp. revert l p Hp. induction (Z.to_nat n) as [|k IH]; intros l p Hp; [lia|]. destruct l as [|x l], p as [|p]; cbn; auto. apply IH. lia.
  - destruct l as [|x l]; cbn [skipn nth]; [rewrite firstn_nil; now destruct p|]. apply IH.
Qed.
Lemma encode_sub m f (len : nat) data o n i : (f <= m)%nat -> (i < f)%nat -> 0 <= o -> 0 <= n -> o + n <= Z.of_nat len ->
  sub o n (nth i (encode m f len data) []) = nth i (encode m f (Z.to_nat n) (map (sub o n) data)) [].
Proof.
  intros Hf Hi Ho Hn Hl. assert (Ls : zlen (nth i (encode m f len data) []) = Z.of_nat len) by (unfold zlen; rewrite encode_col_length by assumption; reflexivity).
  apply (nth_ext _ _ 0 0).
  - pose proof (zlen_sub o n (nth i (encode m f len data) []) Ho Hn ltac:(lia)) as Z1. unfold zlen in Z1. rewrite encode_col_length by assumption. lia.
  - intros p Hp. pose proof (zlen_sub o n (nth i (encode m f len data) []) Ho Hn ltac:(lia)) as Z1. unfold zlen in Z1. assert (Hp' : (p < Z.to_nat n)%nat) by lia.
    rewrite nth_sub by assumption. rewrite !encode_nth by lia. do 2 f_equal. unfold Codec_Props.slice. rewrite map_map. apply map_ext. intros c. now rewrite nth_sub by assumption.
Qed.

(** * One stripe *)
Section Stripe.
Context (L : layout) (cs B : Z) (HB : 0 < B) (Hcs : 0 < cs) (Hf : 0 < lf L < lk L) (H256 : lk L <= 256).
Notation m := (dm L).
Notation C := (col_len cs B).
(** the range [lba, elba) that the caller wants, in the stripe that begins at LBA [slba]; [D] is the caller's buffer *)
Context (lba elba : Z) (D : slice) (eA eB : Z -> slice).
Notation slba := (lba - lba mod (m * cs)).
(** column [i]: LBAs before the range, after the range, in the range, and their place in the caller's buffer *)
Definition chk (i : Z) : Z := slba + i * cs.
Definition pre (i : Z) : Z := Z.max 0 (Z.min cs (lba - chk i)).
Definition post (i : Z) : Z := Z.max 0 (Z.min cs (chk i + cs - elba)).
Definition ulen (i : Z) : Z := cs - pre i - post i.
Definition upos (i : Z) : Z := Z.max 0 (Z.min (elba - lba) (chk i - lba)).
Definition du (i : Z) : slice := sub (upos i * B) (ulen i * B) D.
(** the extra buffers of column [i], its pieces in order, and all its cells *)
Definition exs (i : Z) : list slice := (if 0 <? pre i then [eA i] else []) ++ (if 0 <? post i then [eB i] else []).
Definition pieces (i : Z) : list slice := (if 0 <? pre i then [eA i] else []) ++ (if 0 <? ulen i then [du i] else []) ++ (if 0 <? post i then [eB i] else []).
Definition cell (i : Z) : slice := eA i ++ du i ++ eB i.
Definition sized : Prop := zlen D = (elba - lba) * B /\ forall i, 0 <= i -> zlen (eA i) = pre i * B /\ zlen (eB i) = post i * B.
Definition in_stripe : Prop := 0 <= lba /\ lba < elba /\ elba <= slba + m * cs.

Lemma shape i : in_stripe ->
  (chk i + cs <= lba /\ pre i = cs /\ post i = 0 /\ ulen i = 0 /\ upos i = 0) \/
  (chk i < lba < chk i + cs /\ elba <= chk i + cs /\ pre i = lba - chk i /\ post i = chk i + cs - elba /\ ulen i = elba - lba /\ upos i = 0) \/
  (chk i < lba < chk i + cs /\ chk i + cs < elba /\ pre i = lba - chk i /\ post i = 0 /\ ulen i = chk i + cs - lba /\ upos i = 0) \/
  (lba <= chk i /\ chk i + cs <= elba /\ pre i = 0 /\ post i = 0 /\ ulen i = cs /\ upos i = chk i - lba) \/
  (lba <= chk i < elba /\ elba < chk i + cs /\ pre i = 0 /\ post i = chk i + cs - elba /\ ulen i = elba - chk i /\ upos i = chk i - lba) \/
  (elba <= chk i /\ pre i = 0 /\ post i = cs /\ ulen i = 0 /\ upos i = elba - lba).
Proof.
  intros (H0 & H1 & _). unfold ulen, upos, pre, post. generalize (chk i). intros c. clear -H1 Hcs.
  destruct (Z_le_gt_dec (c + cs) lba); [left|right]. { rewrite (Z.min_l cs), (Z.max_r 0 cs), (Z.min_r cs), (Z.max_l 0 (c + cs - elba)), (Z.min_r (elba - lba)), Z.max_l by lia. repeat split; lia. }
  destruct (Z_lt_ge_dec c lba).
  { rewrite (Z.min_r cs (lba - c)), (Z.max_r 0 (lba - c)), (Z.min_r (elba - lba)), (Z.max_l 0 (c - lba)), (Z.min_r cs) by lia. destruct (Z_le_gt_dec elba (c + cs)); [left|right; left]; [rewrite Z.max_r by lia|rewrite Z.max_l by lia]; repeat split; lia. }
  right. right. rewrite (Z.min_r cs (lba - c)), (Z.max_l 0 (lba - c)) by lia. destruct (Z_le_gt_dec (c + cs) elba); [left|right].
  { rewrite (Z.min_r cs), (Z.max_l 0), (Z.min_r (elba - lba)), Z.max_r by lia. repeat split; lia. }
  destruct (Z_lt_ge_dec c elba); [left|right].
  - rewrite (Z.min_r cs), (Z.max_r 0), (Z.min_r (elba - lba)), Z.max_r by lia. repeat split; lia.
  - rewrite (Z.min_l cs), (Z.max_r 0 cs), (Z.min_l (elba - lba)), Z.max_r by lia. repeat split; lia.
Qed.
Lemma upos_succ i : in_stripe -> 0 <= ulen i /\ 0 <= pre i <= cs /\ 0 <= post i <= cs /\ upos (i + 1) = upos i + ulen i /\ 0 <= upos i <= elba - lba.
Proof.
  intros H. pose proof (shape i H) as X. pose proof (shape (i + 1) H) as Y. replace (chk (i + 1)) with (chk i + cs) in Y by (unfold chk; ring). destruct H as (_ & H1 & _). clear -X Y Hcs H1.
  destruct X as [X|[X|[X|[X|[X|X]]]]]; (split; [lia|]; split; [lia|]; split; [lia|]; split; [|lia]); destruct Y as [Y|[Y|[Y|[Y|[Y|Y]]]]]; lia.
Qed.
Lemma upos_mono i : in_stripe -> upos (i + 1) <= elba - lba.
Proof. intros H. apply (upos_succ (i + 1) H). Qed.
Lemma upos_0 : in_stripe -> upos 0 = 0.
Proof. intros (H0 & H1 & H2). unfold upos, chk. pose proof (Z.mod_pos_bound lba (m * cs) ltac:(unfold dm; nia)). lia. Qed.
Lemma upos_m : in_stripe -> upos m = elba - lba.
Proof. intros (H0 & H1 & H2). unfold upos, chk. lia. Qed.
Lemma zlen_du i : sized -> in_stripe -> zlen (du i) = ulen i * B.
Proof. intros [S1 S2] I. unfold du. destruct (upos_succ i I) as (U1 & U2 & U3 & U4 & U5). pose proof (upos_mono i I). apply zlen_sub; nia. Qed.
Lemma zlen_cell i : sized -> in_stripe -> 0 <= i -> zlen (cell i) = C.
Proof. intros S I H. unfold cell. rewrite !zlen_app, zlen_du by assumption. destruct S as [_ S]. destruct (S i H) as [-> ->]. unfold col_len, ulen. ring. Qed.
Lemma chk_mod i : chk i mod cs = 0.
Proof.
  unfold chk. assert (Hm : 0 < m) by (unfold dm; lia). pose proof (Z.div_mod lba (m * cs) ltac:(nia)) as E.
  replace (lba - lba mod (m * cs) + i * cs) with ((m * (lba / (m * cs)) + i) * cs) by nia. apply Z.mod_mul. lia.
Qed.
(** a boundary inside a column can only be at the two cuts *)
Lemma pre_inside i : in_stripe -> 0 < pre i < cs -> pre i = lba mod cs.
Proof.
  intros I H. pose proof (chk_mod i) as M. unfold pre in *. assert (E : lba - chk i = Z.max 0 (Z.min cs (lba - chk i))) by lia. rewrite <- E in *.
  rewrite <- (Z.mod_small (lba - chk i) cs) by lia. rewrite Zminus_mod, M, Z.sub_0_r. now rewrite Z.mod_mod by lia.
Qed.
Lemma post_inside i : in_stripe -> 0 < post i < cs -> cs - post i = elba mod cs /\ elba mod cs <> 0.
Proof.
  intros I H. pose proof (chk_mod i) as M. unfold post in *. assert (E : chk i + cs - elba = Z.max 0 (Z.min cs (chk i + cs - elba))) by lia. rewrite <- E in *.
  assert (X : elba mod cs = elba - chk i). { rewrite <- (Z.mod_small (elba - chk i) cs) by lia. rewrite Zminus_mod, M, Z.sub_0_r. now rewrite Z.mod_mod by lia. }
  lia.
Qed.

(** the two cuts *)
Definition cut1 : Z := if negb (elba mod cs =? 0) then Z.min (lba mod cs) (elba mod cs) else lba mod cs.
Definition cut2 : Z := cs - (if elba mod cs =? 0 then 0 else if lba mod cs <? elba mod cs then cs - elba mod cs else cs - lba mod cs).
Lemma cuts : 0 <= cut1 <= cut2 /\ cut2 <= cs /\ cut1 < cs.
Proof.
  unfold cut1, cut2. pose proof (Z.mod_pos_bound lba cs Hcs). pose proof (Z.mod_pos_bound elba cs Hcs).
  destruct (Z.eqb_spec (elba mod cs) 0), (Z.ltb_spec (lba mod cs) (elba mod cs)); cbn [negb]; lia.
Qed.
Notation c0 := (cut1 * B).
Notation c1 := ((cut2 - cut1) * B).
Notation c2 := ((cs - cut2) * B).

Lemma append_pieces i : sized -> in_stripe -> 0 <= i -> append_cols c0 c1 c2 (pieces i) = Some (zones c0 c1 c2 (cell i)).
Proof.
  intros S I Hi. pose proof cuts as (K1 & K2 & K3). destruct (upos_succ i I) as (U1 & U2 & U3 & _). pose proof (zlen_du i S I) as Ld. destruct S as [_ S]. destruct (S i Hi) as [LA LB].
  pose proof (pre_inside i I) as PI. pose proof (post_inside i I) as QI. unfold pieces, cell. unfold ulen in *.
  assert (NA : pre i = 0 -> eA i = []) by (intros E; apply zlen_0_nil; rewrite LA, E; lia). assert (NB : post i = 0 -> eB i = []) by (intros E; apply zlen_0_nil; rewrite LB, E; lia).
  assert (ND : cs - pre i - post i = 0 -> du i = []) by (intros E; apply zlen_0_nil; rewrite Ld, E; lia).
  destruct (Z.ltb_spec 0 (pre i)), (Z.ltb_spec 0 (cs - pre i - post i)), (Z.ltb_spec 0 (post i)); cbn [app].
  - apply append_3; unfold lbas; try assumption; unfold cut1, cut2 in *.
    + rewrite LA. f_equal. destruct (Z.eqb_spec (elba mod cs) 0); cbn [negb]; lia.
    + rewrite Ld. f_equal. destruct (Z.eqb_spec (elba mod cs) 0); cbn [negb]; [lia|]. destruct (Z.ltb_spec (lba mod cs) (elba mod cs)); lia.
    + rewrite LB. f_equal. destruct (Z.eqb_spec (elba mod cs) 0); cbn [negb]; [lia|]. destruct (Z.ltb_spec (lba mod cs) (elba mod cs)); lia.
    + destruct (Z.eqb_spec (elba mod cs) 0); cbn [negb]; [lia|]. destruct (Z.ltb_spec (lba mod cs) (elba mod cs)); lia.
    + destruct (Z.eqb_spec (elba mod cs) 0); cbn [negb]; [lia|]. destruct (Z.ltb_spec (lba mod cs) (elba mod cs)); lia.
  - rewrite (NB ltac:(lia)), app_nil_r. apply (append_2 B HB (eA i) (du i) (pre i) (cs - pre i - post i)); try assumption; try lia.
    unfold cut1, cut2. destruct (Z.eqb_spec (elba mod cs) 0); cbn [negb]; [lia|]. destruct (Z.ltb_spec (lba mod cs) (elba mod cs)); lia.
  - rewrite (ND ltac:(lia)). cbn [app]. exfalso. unfold pre, post in *. destruct I as (I0 & I1 & I2). lia.
  - rewrite (ND ltac:(lia)), (NB ltac:(lia)), !app_nil_r. apply append_1; try assumption; try lia. unfold lbas. rewrite LA. f_equal. lia.
  - rewrite (NA ltac:(lia)). cbn [app]. apply (append_2 B HB (du i) (eB i) (cs - pre i - post i) (post i)); try assumption; try lia.
    unfold cut1, cut2. destruct (Z.eqb_spec (elba mod cs) 0); cbn [negb]; [lia|]. destruct (Z.ltb_spec (lba mod cs) (elba mod cs)); lia.
  - rewrite (NA ltac:(lia)), (NB ltac:(lia)). cbn [app]. rewrite app_nil_r. apply append_1; try assumption; try lia. unfold lbas. rewrite Ld. f_equal. lia.
  - rewrite (NA ltac:(lia)), (ND ltac:(lia)). cbn [app]. apply append_1; try assumption; try lia. unfold lbas. rewrite LB. f_equal. lia.
  - exfalso. lia.
Qed.

(** one round of the loop takes exactly the pieces of its column *)
Lemma cut1_pos i : in_stripe -> 0 < pre i < cs -> (0 <? c0) = true.
Proof.
  intros I H. pose proof cuts as (K1 & K2 & K3). pose proof (pre_inside i I H) as PI. rewrite (mul_pos_ltb B HB) by apply K1. apply Z.ltb_lt. unfold cut1. pose proof (Z.mod_pos_bound elba cs Hcs). clear -PI H H0 Hcs.
  destruct (Z.eqb_spec (elba mod cs) 0); cbn [negb]; lia.
Qed.
Lemma cut2_pos i : in_stripe -> 0 < post i < cs -> (0 <? c2) = true.
Proof.
  intros I H. pose proof cuts as (K1 & K2 & K3). pose proof (post_inside i I H) as QI. rewrite (mul_pos_ltb B HB) by (clear - K2; lia). apply Z.ltb_lt. unfold cut2. pose proof (Z.mod_pos_bound lba cs Hcs). clear -QI H H0 Hcs.
  destruct (Z.eqb_spec (elba mod cs) 0); [lia|]. destruct (Z.ltb_spec (lba mod cs) (elba mod cs)); lia.
Qed.
Lemma recon_cols_ok i rest : sized -> in_stripe -> 0 <= i -> 
  recon_cols cs B c0 c2 lba elba slba (zdrop (upos i * B) D) (exs i ++ rest) i = Some (pieces i, zdrop (upos (i + 1) * B) D, rest).
Proof.
  intros S I Hi. destruct (upos_succ i I) as (U1 & U2 & U3 & U4 & U5). pose proof (upos_mono i I) as U6. pose proof (cut1_pos i I) as P0. pose proof (cut2_pos i I) as P2. destruct S as [SD S]. destruct (S i Hi) as [LA LB]. clear S.
  pose proof (shape i I) as X. destruct I as (I0 & I1 & I2). clear I0 I2. unfold recon_cols, exs, pieces, du, sub. fold (chk i).
  assert (LZ : zlen (zdrop (upos i * B) D) = (elba - lba - upos i) * B) by (rewrite zlen_drop by nia; nia).
  rewrite U4. rewrite Z.mul_add_distr_r, (Z.add_comm (upos i * B)), <- zdrop_zdrop by nia. rewrite U4 in U6. clear SD U4. generalize dependent (zdrop (upos i * B) D). intros D' LZ. generalize dependent (chk i). intros c X.
  destruct X as [X|[X|[X|[X|[X|X]]]]].
  - destruct X as (X1 & X2 & X3 & X4 & X5). rewrite (proj2 (Z.leb_le _ _)) by exact X1. rewrite X2, X3, X4. rewrite (proj2 (Z.ltb_lt 0 cs) Hcs). cbn [app Z.ltb Z.compare]. rewrite zdrop_0 by lia. reflexivity.
  - destruct X as (X1 & X2 & X3 & X4 & X5 & X6). rewrite (proj2 (Z.leb_gt _ _)), (proj2 (Z.ltb_lt c lba)) by apply X1. rewrite P0 by (clear P0 P2; lia). unfold oassert. clear P0 P2.
    rewrite (proj2 (Z.ltb_lt 0 (pre i))) by lia. cbn [app]. rewrite Z.min_l by lia. rewrite <- X5. rewrite (proj2 (Z.ltb_lt 0 (ulen i))) by lia. rewrite split_to_ok by nia. cbn [obind fst snd].
    assert (E5 : C - ulen i * B - zlen (eA i) = post i * B) by (rewrite LA; unfold col_len, ulen; ring). rewrite E5.
    destruct (Z.ltb_spec 0 (post i)) as [H|H].
    + destruct (Z.eqb_spec (post i * B) 0); [nia|]. reflexivity.
    + assert (E6 : post i = 0) by lia. rewrite E6. reflexivity.
  - destruct X as (X1 & X2 & X3 & X4 & X5 & X6). rewrite (proj2 (Z.leb_gt _ _)), (proj2 (Z.ltb_lt c lba)) by apply X1. rewrite P0 by (clear P0 P2; lia). unfold oassert. clear P0 P2.
    rewrite (proj2 (Z.ltb_lt 0 (pre i))) by lia. cbn [app]. rewrite Z.min_r by lia. rewrite <- X5. rewrite (proj2 (Z.ltb_lt 0 (ulen i))) by lia. rewrite split_to_ok by nia. cbn [obind fst snd].
    assert (E5 : C - ulen i * B - zlen (eA i) = post i * B) by (rewrite LA; unfold col_len, ulen; ring). rewrite E5, X4. reflexivity.
  - destruct X as (X1 & X2 & X3 & X4 & X5 & X6). clear P0 P2. rewrite (proj2 (Z.leb_gt _ _)), (proj2 (Z.ltb_ge c lba)), (proj2 (Z.leb_le (c + cs) elba)) by lia. rewrite X3, X4, X5. cbn [Z.ltb Z.compare app]. rewrite (proj2 (Z.ltb_lt 0 cs) Hcs). cbn [app].
    unfold col_len. rewrite X5 in *. rewrite split_to_ok by nia. reflexivity.
  - destruct X as (X1 & X2 & X3 & X4 & X5 & X6). rewrite P2 by (clear P0 P2; lia). clear P0 P2. rewrite (proj2 (Z.leb_gt _ _)), (proj2 (Z.ltb_ge c lba)), (proj2 (Z.leb_gt (c + cs) elba)), (proj2 (Z.ltb_lt c elba)) by lia. unfold oassert.
    rewrite X3. rewrite (proj2 (Z.ltb_lt 0 (post i))), (proj2 (Z.ltb_lt 0 (ulen i))) by lia. cbn [Z.ltb Z.compare app].
    assert (E4 : upos i + ulen i = elba - lba) by lia. rewrite ztake_all by nia. rewrite (zdrop_all (ulen i * B)) by nia. reflexivity.
  - destruct X as (X1 & X3 & X4 & X5 & X6). clear P0 P2. rewrite (proj2 (Z.leb_gt _ _)), (proj2 (Z.ltb_ge c lba)), (proj2 (Z.leb_gt (c + cs) elba)), (proj2 (Z.ltb_ge c elba)) by lia.
    rewrite X3, X4, X5. rewrite (proj2 (Z.ltb_lt 0 cs) Hcs). cbn [Z.ltb Z.compare app]. rewrite zdrop_0 by lia. reflexivity.
Qed.

Lemma recon_loop_ok : forall n i v rest, sized -> in_stripe -> 0 <= i -> length v = n -> 
  recon_loop cs B c0 c1 c2 lba elba slba (zdrop (upos i * B) D) (concat (map exs (zrange i (i + Z.of_nat n))) ++ rest) i v = Some (map (fun j => zones c0 c1 c2 (cell j)) (zrange i (i + Z.of_nat n))).
Proof.
  induction n as [|n IH]; intros i [|r v] rest S I Hi Lv; cbn [length] in Lv; try lia; cbn [recon_loop].
  - rewrite zrange_empty by lia. reflexivity.
  - rewrite zrange_cons by lia. cbn [map concat]. rewrite <- app_assoc. rewrite recon_cols_ok by assumption. cbn [obind fst snd]. rewrite append_pieces by assumption. cbn [obind].
    replace (i + Z.of_nat (Datatypes.S n)) with (i + 1 + Z.of_nat n) by lia. rewrite IH by (auto; lia). reflexivity.
Qed.

(** * Decoding one zone *)
(** the columns of the stripe as they should be on the disks *)
Context (col : Z -> list Z).
Notation data := (map col (zrange 0 m)).
Notation kN := (Z.to_nat (lk L)).
Notation fN := (Z.to_nat (lf L)).
Notation mN := (Z.to_nat m).
Definition good_stripe : Prop :=
  columns mN (Z.to_nat C) data /\ forall p, 0 <= p < lf L -> col (m + p) = nth (Z.to_nat p) (encode kN fN (Z.to_nat C) data) [].
Lemma mN_eq : (kN - fN)%nat = mN.
Proof. unfold dm. lia. Qed.
Lemma C_pos : 0 < C.
Proof. unfold col_len. nia. Qed.
Lemma m_pos : 0 < m < lk L.
Proof. unfold dm. lia. Qed.
Lemma nth_data i : 0 <= i < m -> nth (Z.to_nat i) data [] = col i.
Proof.
  intros H. rewrite (nth_indep _ [] (col 0)) by (rewrite map_length, zrange_length; lia). rewrite (map_nth col). rewrite nth_zrange by lia. f_equal. lia.
Qed.
Lemma zlen_col i : good_stripe -> 0 <= i < lk L -> zlen (col i) = C.
Proof.
  intros [[G1 G2] G3] H. pose proof C_pos. destruct (Z_lt_ge_dec i m) as [Hi|Hi].
  - rewrite <- nth_data by lia. pose proof (proj1 (Forall_forall _ _) G2 (nth (Z.to_nat i) data [])) as X. destruct X as [X _]; [apply nth_In; rewrite G1; lia|]. unfold zlen. lia.
  - replace i with (m + (i - m)) by lia. rewrite G3 by (unfold dm in *; lia). unfold zlen. rewrite encode_col_length by (unfold dm in *; lia). lia.
Qed.
Lemma sub_columns o b : good_stripe -> 0 <= o -> 0 <= b -> o + b <= C -> columns mN (Z.to_nat b) (map (sub o b) data).
Proof.
  intros G Ho Hb Hl. pose proof G as [[G1 G2] G3]. split; [now rewrite map_length|]. rewrite Forall_map. apply Forall_forall. intros c Hc. pose proof (proj1 (Forall_forall _ _) G2 c Hc) as [X1 X2]. split.
  - assert (Z : zlen (sub o b c) = b) by (apply zlen_sub; try lia; unfold zlen; pose proof C_pos; lia). unfold zlen in Z. lia.
  - apply Forall_forall. intros x Hx. apply (proj1 (Forall_forall _ _) X2). now apply in_sub in Hx.
Qed.
Lemma sub_stripe o b i : good_stripe -> 0 <= o -> 0 <= b -> o + b <= C -> 0 <= i < lk L ->
  nth (Z.to_nat i) (stripe kN fN (Z.to_nat b) (map (sub o b) data)) [] = sub o b (col i).
Proof.
  intros G Ho Hb Hl H. unfold stripe. pose proof (sub_columns o b G Ho Hb Hl) as [S1 _]. pose proof m_pos as MP. destruct (Z_lt_ge_dec i m) as [Hi|Hi].
  - rewrite app_nth1 by lia. rewrite <- (sub_nil (A := Z) o b) at 1. rewrite (map_nth (sub o b)). now rewrite nth_data by lia.
  - rewrite app_nth2 by lia. rewrite S1. replace (Z.to_nat i - mN)%nat with (Z.to_nat (i - m)) by lia. replace (col i) with (col (m + (i - m))) by (f_equal; lia). destruct G as [_ G3]. rewrite G3 by (unfold dm in *; lia).
    symmetry. apply encode_sub; try lia; unfold dm in *; try lia.
Qed.

Lemma put_all_ok (sl : Z -> slice) (vl : Z -> list Z) : forall R mm, NoDup R -> (forall i, In i R -> NoDup (sl i) /\ length (vl i) = length (sl i)) ->
  (forall i j a, In i R -> In j R -> i <> j -> In a (sl i) -> ~ In a (sl j)) ->
  (forall i, In i R -> get (put_all mm (map sl R) (map vl R)) (sl i) = vl i) /\ (forall a, (forall i, In i R -> ~ In a (sl i)) -> put_all mm (map sl R) (map vl R) a = mm a).
Proof.
  induction R as [|r R IH]; intros mm N H1 H2; cbn [map put_all]; [split; [intros ? []|auto]|]. inversion N as [|? ? N1 N2]; subst.
  destruct (IH (put mm (sl r) (vl r)) N2) as [I1 I2]; [intros i Hi; apply H1; now right|intros i j a Hi Hj; apply H2; now right|]. split.
  - intros i [<-|Hi]; [|auto]. transitivity (get (put mm (sl r) (vl r)) (sl r)).
    + apply get_ext. intros a Ha. apply I2. intros j Hj Hja. apply (H2 r j a); [now left|now right|intros ->; contradiction|exact Ha|exact Hja].
    + apply get_put_same; apply H1; now left.
  - intros a Ha. rewrite I2 by (intros i Hi; apply Ha; now right). apply put_other. apply Ha. now left.
Qed.

Lemma nth_error_filter_zseq (p : Z -> bool) : forall len a t i, nth_error (filter p (zseq a len)) t = Some i ->
  a <= i < a + Z.of_nat len /\ p i = true /\ length (filter p (zrange a i)) = t.
Proof.
  induction len as [|len IH]; intros a t i H; cbn [zseq filter] in H; [now destruct t|]. destruct (p a) eqn:E.
  - destruct t as [|t]; cbn [nth_error] in H.
    + injection H as <-. rewrite zrange_empty by lia. repeat split; auto; lia.
    + apply IH in H. destruct H as (H1 & H2 & H3). split; [lia|]. split; [exact H2|]. rewrite zrange_cons by lia. cbn [filter]. rewrite E. cbn [length]. now rewrite H3.
  - apply IH in H. destruct H as (H1 & H2 & H3). split; [lia|]. split; [exact H2|]. rewrite zrange_cons by lia. cbn [filter]. now rewrite E.
Qed.
Lemma needed_some (okp : Z -> bool) np : 0 <= np -> m <= zlen (filter okp (zrange 0 np)) ->
  exists need, disks_needed L (map okp (zrange 0 np)) = Some need /\ m <= need <= np /\ zlen (filter okp (zrange 0 need)) = m.
Proof.
  intros Hn Hc. pose proof m_pos. unfold disks_needed. rewrite zlen_map, zlen_zrange, Z.sub_0_r by lia. rewrite (combine_map_r okp (zrange 0 np)). rewrite filter_map_comm. cbn [snd]. rewrite nth_error_map.
  destruct (nth_error (filter okp (zrange 0 np)) (Z.to_nat (m - 1))) as [i|] eqn:E.
  - cbn [option_map]. exists (1 + i). split; [reflexivity|]. apply nth_error_filter_zseq in E. destruct E as (E1 & E2 & E3).
    assert (X : zlen (filter okp (zrange 0 (1 + i))) = m). { rewrite zrange_snoc by lia. rewrite filter_app, zlen_app. replace (1 + i - 1) with i by lia. cbn [filter]. rewrite E2. unfold zlen in *. rewrite E3. cbn [length]. lia. }
    split; [|exact X]. split; [|lia]. pose proof (count_le_length okp (zrange 0 (1 + i))) as Y. unfold count in Y. unfold zlen in X. rewrite zrange_length in Y. lia.
  - apply nth_error_None in E. unfold zlen in Hc. lia.
Qed.
Lemma needed_none (okp : Z -> bool) np : 0 <= np -> zlen (filter okp (zrange 0 np)) < m -> disks_needed L (map okp (zrange 0 np)) = None.
Proof.
  intros Hn Hc. pose proof m_pos. unfold disks_needed. rewrite zlen_map, zlen_zrange, Z.sub_0_r by lia. rewrite (combine_map_r okp (zrange 0 np)). rewrite filter_map_comm. cbn [snd]. rewrite nth_error_map.
  rewrite (proj2 (nth_error_None _ _)); [reflexivity|]. unfold zlen in Hc. change (fun x => okp x) with okp. lia.
Qed.

(** the cells of the columns are all different *)
Definition distinct (n : Z) : Prop :=
  (forall i, 0 <= i < n -> NoDup (cell i)) /\ (forall i j a, 0 <= i < n -> 0 <= j < n -> i <> j -> In a (cell i) -> ~ In a (cell j)).

Lemma filter_zrange_seq (p : Z -> bool) n : 0 <= n -> map Z.to_nat (filter p (zrange 0 n)) = filter (fun r => p (Z.of_nat r)) (seq 0 (Z.to_nat n)).
Proof.
  intros Hn. rewrite <- (Z2Nat.id n) at 1 by lia. rewrite <- zrange_seq. rewrite filter_map_comm, map_map. rewrite (map_ext _ (fun x => x)) by (intros; lia). apply map_id.
Qed.

Lemma decode_zone_ok (okp : Z -> bool) n j o b mm : sized -> in_stripe -> good_stripe -> distinct n -> m < n <= lk L ->
  zlen (filter okp (zrange 0 n)) = m -> 0 <= o -> 0 <= b -> o + b <= C -> 
  (forall i, 0 <= i -> zone j (zones c0 c1 c2 (cell i)) = sub o b (cell i)) ->
  (forall i, 0 <= i < n -> okp i = true -> get mm (sub o b (cell i)) = sub o b (col i)) ->
  exists mm', decode_zone L mm (map okp (zrange 0 n)) (map (fun i => zones c0 c1 c2 (cell i)) (zrange 0 n)) j b = Some mm' /\
    (forall i, 0 <= i < m -> okp i = false -> get mm' (sub o b (cell i)) = sub o b (col i)) /\
    (forall a, (forall i, 0 <= i < m -> okp i = false -> ~ In a (sub o b (cell i))) -> mm' a = mm a).
Proof.
  intros SZ I G [D1 D2] Hn Hc Ho Hb Hl Hz Hm. pose proof m_pos as MP. unfold decode_zone. cbv zeta. rewrite zlen_map, zlen_zrange by lia. rewrite Z.sub_0_r. rewrite map_combine3. rewrite !filter_map_comm. cbn [fst snd]. rewrite !map_map. cbn [fst snd].
  set (R := zrange 0 n) in *. set (MS := filter (fun x => negb (okp x) && (x <? m)) R).
  assert (EMS : MS = filter (fun x => negb (okp x)) (zrange 0 m)).
  { unfold MS, R. rewrite (zrange_split 0 m n) by lia. rewrite filter_app. rewrite (filter_ext_in _ (fun x => negb (okp x))) by (intros x Hx; apply in_zrange in Hx; rewrite (proj2 (Z.ltb_lt x m)) by lia; apply andb_true_r).
    rewrite (filter_ext_in _ (fun _ => false) (zrange m n)) by (intros x Hx; apply in_zrange in Hx; rewrite (proj2 (Z.ltb_ge x m)) by lia; apply andb_false_r). rewrite <- (app_nil_r (filter _ (zrange 0 m))) at 2. f_equal. clear. induction (zrange m n); auto. }
  assert (IMS : forall i, In i MS <-> 0 <= i < m /\ okp i = false) by (intros i; rewrite EMS, filter_In, in_zrange, negb_true_iff; tauto).
  rewrite (map_ext_in _ (fun i => sub o b (cell i)) (filter _ R)) by (intros i Hi; apply filter_In in Hi; destruct Hi as [Hi _]; apply in_zrange in Hi; apply Hz; lia).
  rewrite (map_ext_in _ (fun i => sub o b (cell i)) MS) by (intros i Hi; apply IMS in Hi; apply Hz; lia).
  match goal with |- context [@is_nil ?T ?x] => destruct (@is_nil T x) eqn:EN end; cbn [negb andb].
  { exists mm. split; [reflexivity|]. split; [|auto]. intros i Hi Hk. exfalso. destruct MS as [|x l]; [|discriminate]. apply (proj2 (IMS i)); auto. }
  destruct (Z.ltb_spec 0 b) as [Hb'|Hb'].
  2:{ exists mm. split; [reflexivity|]. split; [|auto]. intros i Hi Hk. assert (b = 0) by lia. subst b. unfold sub. now rewrite !ztake_0 by lia. }
  assert (ZL : forall i, 0 <= i -> zlen (sub o b (cell i)) = b) by (intros i Hi; apply zlen_sub; rewrite ?zlen_cell by assumption; lia).
  assert (FA : forallb (fun s : slice => b <=? zlen s) (map (fun i => sub o b (cell i)) (filter okp R) ++ map (fun i => sub o b (cell i)) MS) = true).
  { apply forallb_forall. intros s Hs. apply Z.leb_le. apply in_app_iff in Hs. destruct Hs as [Hs|Hs]; apply in_map_iff in Hs; destruct Hs as (i & <- & Hi).
    - apply filter_In in Hi. destruct Hi as [Hi _]. apply in_zrange in Hi. rewrite ZL by lia. lia.
    - apply IMS in Hi. rewrite ZL by lia. lia. }
  match goal with |- context [oassert ?x _] => replace x with true by (symmetry; exact FA) end. cbn [oassert]. rewrite ?map_map. rewrite map_length.
  assert (TS : forall i, 0 <= i -> ztake b (sub o b (cell i)) = sub o b (cell i)) by (intros i Hi; apply ztake_all; rewrite ZL; lia).
  rewrite (map_ext_in _ (fun i => sub o b (cell i)) MS) by (intros i Hi; apply IMS in Hi; rewrite Hz by lia; apply TS; lia).
  rewrite (map_ext_in _ (fun i => sub o b (col i)) (filter okp R)) by (intros i Hi; apply filter_In in Hi; destruct Hi as [Hi Hok]; apply in_zrange in Hi; rewrite Hz by lia; rewrite TS by lia; apply Hm; auto; lia).
  (* the codec *)
  set (lost := fun r : nat => negb (nth r (map okp R) true)).
  assert (El : forall r, (r < Z.to_nat n)%nat -> lost r = negb (okp (Z.of_nat r))).
  { intros r Hr. unfold lost, R. f_equal. rewrite (nth_indep _ true (okp 0)) by (rewrite map_length, zrange_length; lia). rewrite (map_nth okp). rewrite nth_zrange by lia. f_equal. }
  assert (El2 : forall r, (Z.to_nat n <= r)%nat -> lost r = false).
  { intros r Hr. unfold lost, R. rewrite nth_overflow; [reflexivity|]. rewrite map_length, zrange_length. lia. }
  assert (EF : filter (fun r => negb (lost r)) (seq 0 (Z.to_nat n)) = map Z.to_nat (filter okp R)).
  { unfold R. rewrite filter_zrange_seq by lia. apply filter_ext_in. intros r Hr. apply in_seq in Hr. rewrite El by lia. apply negb_involutive. }
  assert (Seq : seq 0 kN = seq 0 (Z.to_nat n) ++ seq (Z.to_nat n) (kN - Z.to_nat n)) by (rewrite <- seq_app; f_equal; lia).
  assert (EFL : firstn mN (filter (fun r => negb (lost r)) (seq 0 kN)) = map Z.to_nat (filter okp R)).
  { rewrite Seq, filter_app, EF. rewrite firstn_app. unfold zlen in Hc. assert (LL : length (map Z.to_nat (filter okp R)) = mN) by (rewrite map_length; lia). rewrite LL, Nat.sub_diag. cbn [firstn]. rewrite app_nil_r. apply firstn_all2. lia. }
  assert (ELD : filter lost (seq 0 mN) = map Z.to_nat MS).
  { rewrite EMS. rewrite filter_zrange_seq by lia. apply filter_ext_in. intros r Hr. apply in_seq in Hr. apply El. lia. }
  assert (AM : at_most_lost kN fN lost).
  { unfold at_most_lost. rewrite Seq, filter_app, app_length. rewrite (filter_ext_in lost (fun _ => false) (seq (Z.to_nat n) _)) by (intros r Hr; apply in_seq in Hr; apply El2; lia).
    assert (Z0 : forall l : list nat, length (filter (fun _ => false) l) = O) by (induction l; auto). rewrite Z0. pose proof (filter_split lost (seq 0 (Z.to_nat n))) as FS. rewrite EF, map_length, seq_length in FS. unfold zlen in Hc. unfold dm in *. lia. }
  pose proof (C06_decode_rebuilds_lost_columns kN fN (Z.to_nat b) (map (sub o b) data) lost) as CD. rewrite mN_eq in CD.
  assert (SV : survivors kN mN lost (stripe kN fN (Z.to_nat b) (map (sub o b) data)) = map (fun i => sub o b (col i)) (filter okp R)).
  { unfold survivors. rewrite EFL, map_map. apply map_ext_in. intros i Hi. apply filter_In in Hi. destruct Hi as [Hi _]. apply in_zrange in Hi. apply sub_stripe; auto; lia. }
  rewrite SV, ELD, map_length in CD. 
  rewrite CD; [|lia|lia|lia|now apply sub_columns|exact AM|intros E; apply map_eq_nil in E; rewrite E in EN; discriminate].
  cbn [obind]. eexists. split; [reflexivity|].
  assert (LD : lost_data mN lost (map (sub o b) data) = map (fun i => sub o b (col i)) MS).
  { unfold lost_data. rewrite ELD, map_map. apply map_ext_in. intros i Hi. apply IMS in Hi. rewrite <- (sub_nil (A := Z) o b) at 1. rewrite (map_nth (sub o b)). now rewrite nth_data by lia. }
  rewrite LD.
  destruct (put_all_ok (fun i => sub o b (cell i)) (fun i => sub o b (col i)) MS mm) as [P1 P2].
  - rewrite EMS. apply NoDup_filter, NoDup_zrange.
  - intros i Hi. apply IMS in Hi. split; [apply NoDup_sub, D1; lia|]. assert (Z1 : zlen (sub o b (col i)) = b) by (apply zlen_sub; rewrite ?zlen_col by (auto; lia); lia). pose proof (ZL i ltac:(lia)) as Z2. unfold zlen in Z1, Z2. lia.
  - intros i i' a Hi Hi' Hne Ha Ha'. apply IMS in Hi, Hi'. apply in_sub in Ha, Ha'. revert Ha'. apply (D2 i i' a); auto; lia.
  - split; [intros i Hi Hk; apply P1; apply IMS; auto|]. intros a Ha. apply P2. intros i Hi. apply IMS in Hi. now apply Ha.
Qed.

(** * The whole reconstruction *)
Lemma reconstruct_fail okp np mm ex : 0 <= np -> zlen (filter okp (zrange 0 np)) < m ->
  read_at_reconstruction L cs B mm D lba ex (map okp (zrange 0 np)) = Some (mm, false).
Proof. intros Hn Hc. unfold read_at_reconstruction. now rewrite needed_none. Qed.
Lemma all_ok_count (okp : Z -> bool) n : 0 <= n -> (forall i, 0 <= i < n -> okp i = true) -> zlen (filter okp (zrange 0 n)) = n.
Proof.
  intros Hn H. pose proof (count_all_true okp (zrange 0 n)) as X. unfold count in X. unfold zlen. rewrite X; [rewrite zrange_length; lia|]. intros x Hx. apply in_zrange in Hx. now apply H.
Qed.
Lemma filter_len_mono (okp : Z -> bool) a b : 0 <= a <= b -> zlen (filter okp (zrange 0 a)) <= zlen (filter okp (zrange 0 b)).
Proof. intros H. rewrite (zrange_split 0 a b) by lia. rewrite filter_app, zlen_app. pose proof (zlen_nonneg (filter okp (zrange a b))). lia. Qed.
Lemma filter_len_le (okp : Z -> bool) a : 0 <= a -> zlen (filter okp (zrange 0 a)) <= a.
Proof. intros H. pose proof (count_le_length okp (zrange 0 a)) as Y. unfold count in Y. unfold zlen. rewrite zrange_length in Y. lia. Qed.
Lemma reconstruct_intact okp np mm ex : m <= np -> (forall i, 0 <= i < m -> okp i = true) ->
  read_at_reconstruction L cs B mm D lba ex (map okp (zrange 0 np)) = Some (mm, true).
Proof.
  intros Hn Ha. pose proof m_pos. pose proof (all_ok_count okp m ltac:(lia) Ha) as X. pose proof (filter_len_mono okp m np ltac:(lia)) as Y. destruct (needed_some okp np ltac:(lia) ltac:(lia)) as (need & E & N1 & N2).
  unfold read_at_reconstruction. rewrite E. destruct (Z.leb_spec need m) as [|G]; [reflexivity|]. exfalso.
  (* the last disk needed is itself intact *)
  unfold disks_needed in E. rewrite zlen_map, zlen_zrange, Z.sub_0_r in E by lia. rewrite (combine_map_r okp (zrange 0 np)), filter_map_comm in E. cbn [snd] in E. rewrite nth_error_map in E. change (fun x => okp x) with okp in E.
  destruct (nth_error (filter okp (zrange 0 np)) (Z.to_nat (m - 1))) as [i|] eqn:E1; [|discriminate]. cbn [option_map] in E. assert (EN : need = 1 + i) by congruence. apply nth_error_filter_zseq in E1. destruct E1 as (E2 & _ & E3). pose proof (filter_len_mono okp m i ltac:(lia)) as W. rewrite X in W. clear -W E3 H. unfold zlen in W. lia.
Qed.

Lemma reconstruct_ok okp np mm rest : sized -> in_stripe -> good_stripe -> distinct np -> m <= np <= lk L ->
  (forall i, 0 <= i < np -> okp i = true -> get mm (cell i) = col i) -> m <= zlen (filter okp (zrange 0 np)) ->
  exists mm', read_at_reconstruction L cs B mm D lba (concat (map exs (zrange 0 np)) ++ rest) (map okp (zrange 0 np)) = Some (mm', true) /\
    (forall i, 0 <= i < m -> get mm' (cell i) = col i) /\
    (forall a, (forall i, 0 <= i < m -> ~ In a (cell i)) -> mm' a = mm a).
Proof.
  intros S I G DI Hn Hm Hc. pose proof m_pos as MP. destruct (needed_some okp np ltac:(lia) Hc) as (need & E & N1 & N2).
  destruct (Z_le_gt_dec need m) as [Hle|Hgt].
  { assert (need = m) by lia. subst need. assert (Ha : forall i, 0 <= i < m -> okp i = true).
    { intros i Hi. destruct (okp i) eqn:Ei; [reflexivity|]. exfalso. rewrite (zrange_split 0 i m) in N2 by lia. rewrite filter_app, zlen_app in N2. rewrite (zrange_cons i m) in N2 by lia. cbn [filter] in N2. rewrite Ei in N2. pose proof (filter_len_le okp i ltac:(lia)).
      pose proof (count_le_length okp (zrange (i + 1) m)) as Y. unfold count in Y. rewrite zrange_length in Y. unfold zlen in *. lia. }
    exists mm. split; [now apply reconstruct_intact|]. split; [|auto]. intros i Hi. apply Hm; [lia|auto]. }
  unfold read_at_reconstruction. rewrite E. rewrite (proj2 (Z.leb_gt need m)) by lia.
  assert (EL : lba + zlen D / B = elba). { destruct S as [-> _]. rewrite Z.div_mul by lia. lia. } rewrite EL. cbv zeta. fold cut1.
  assert (EP : (if elba mod cs =? 0 then 0 else if lba mod cs <? elba mod cs then cs - elba mod cs else cs - lba mod cs) = cs - cut2) by (unfold cut2; lia). rewrite EP.
  assert (EC1 : C - cut1 * B - (cs - cut2) * B = (cut2 - cut1) * B) by (unfold col_len; ring). rewrite EC1.
  assert (TV : ztake need (map okp (zrange 0 np)) = map okp (zrange 0 need)).
  { rewrite <- map_ztake. f_equal. rewrite (zrange_split 0 need np) by lia. rewrite ztake_app by lia. rewrite zlen_zrange by lia. rewrite (ztake_0 (need - _)) by lia. rewrite app_nil_r. apply ztake_all. rewrite zlen_zrange by lia. lia. }
  rewrite TV. assert (XE : concat (map exs (zrange 0 np)) ++ rest = concat (map exs (zrange 0 (0 + Z.of_nat (Z.to_nat need)))) ++ (concat (map exs (zrange need np)) ++ rest)).
  { rewrite (zrange_split 0 need np) by lia. rewrite map_app, concat_app, <- app_assoc. do 4 f_equal. lia. }
  rewrite XE. pose proof (recon_loop_ok (Z.to_nat need) 0 (map okp (zrange 0 need)) (concat (map exs (zrange need np)) ++ rest) S I ltac:(lia) ltac:(rewrite map_length, zrange_length; lia)) as RL.
  rewrite zdrop_0 in RL by (rewrite upos_0 by assumption; lia). rewrite RL. replace (0 + Z.of_nat (Z.to_nat need)) with need by lia. cbn [obind].
  pose proof cuts as (K1 & K2 & K3). assert (DN : distinct need). { destruct DI as [D1 D2]. split; [intros i Hi; apply D1; lia|intros i j a Hi Hj; apply D2; lia]. }
  assert (Hz0 : forall i, 0 <= i -> zone 0 (zones c0 c1 c2 (cell i)) = sub 0 c0 (cell i)) by reflexivity.
  assert (Hz1 : forall i, 0 <= i -> zone 1 (zones c0 c1 c2 (cell i)) = sub c0 c1 (cell i)) by reflexivity.
  assert (Hz2 : forall i, 0 <= i -> zone 2 (zones c0 c1 c2 (cell i)) = sub (c0 + c1) c2 (cell i)) by reflexivity.
  assert (CC : c0 + c1 + c2 = C) by (unfold col_len; ring). assert (C0 : 0 <= c0) by nia. assert (C1 : 0 <= c1) by nia. assert (C2 : 0 <= c2) by nia.
  assert (Dis : forall o b o' b' i j a, 0 <= o -> 0 <= b -> 0 <= o' -> 0 <= b' -> 0 <= i < need -> 0 <= j < need -> i <> j \/ o + b <= o' \/ o' + b' <= o -> In a (sub o b (cell i)) -> ~ In a (sub o' b' (cell j))).
  { intros o b o' b' i j a Ho Hb Ho' Hb' Hi Hj Hne H1 H2. destruct (Z.eq_dec i j) as [<-|Nij].
    - destruct DN as [D1 _]. specialize (D1 i Hi). destruct Hne as [Hne|Hne]; [congruence|].
      assert (GG : forall o b o' b', 0 <= o -> 0 <= b -> 0 <= b' -> o + b <= o' -> In a (sub o b (cell i)) -> In a (sub o' b' (cell i)) -> False).
      { clear -D1. intros o b o' b' Ho Hb Hb' Hob A1 A2. rewrite <- (ztake_drop (o + b) (cell i)) in D1. apply NoDup_app_iff in D1. destruct D1 as (_ & _ & D1). apply (D1 a).
        - unfold sub in A1. rewrite ztake_zdrop_comm in A1 by lia. rewrite Z.add_comm in A1. unfold zdrop in A1. rewrite <- (firstn_skipn (Z.to_nat o)). apply in_or_app. now right.
        - unfold sub in A2. replace o' with ((o' - (o + b)) + (o + b)) in A2 by lia. rewrite <- zdrop_zdrop in A2 by lia. apply in_sub in A2. exact A2. }
      destruct Hne as [Hne|Hne]; [exact (GG o b o' b' Ho Hb Hb' Hne H1 H2)|exact (GG o' b' o b Ho' Hb' Hb Hne H2 H1)].
    - apply in_sub in H1, H2. destruct DN as [_ D2]. apply (D2 i j a); auto. }
  assert (S0 : forall mx i, 0 <= i < need -> get mx (cell i) = get mx (sub 0 c0 (cell i)) ++ get mx (sub c0 c1 (cell i)) ++ get mx (sub (c0 + c1) c2 (cell i))).
  { intros mx i Hi. rewrite <- !get_app. f_equal. pose proof (zlen_cell i S I ltac:(lia)) as Lc. rewrite <- (ztake_drop c0 (cell i)) at 1. unfold sub. rewrite (zdrop_0 0) by lia. f_equal. rewrite <- (ztake_drop c1 (zdrop c0 (cell i))) at 1. f_equal. rewrite zdrop_zdrop by lia. rewrite (Z.add_comm c1). symmetry. apply ztake_all. rewrite zlen_drop by lia. lia. }
  destruct (decode_zone_ok okp need 0 0 c0 mm S I G DN ltac:(lia) N2 ltac:(lia) C0 ltac:(lia) Hz0) as (m0 & E0 & A0 & B0).
  { intros i Hi Hk. rewrite get_sub. f_equal. apply Hm; [lia|exact Hk]. }
  rewrite E0. cbn [obind].
  destruct (decode_zone_ok okp need 1 c0 c1 m0 S I G DN ltac:(lia) N2 C0 C1 ltac:(lia) Hz1) as (m1 & E1 & A1 & B1).
  { intros i Hi Hk. rewrite (get_ext m0 mm); [rewrite get_sub; f_equal; apply Hm; [lia|exact Hk]|]. intros a Ha. apply B0. intros j Hj Hk' Ha'. revert Ha'. apply (Dis c0 c1 0 c0 i j a); auto; try lia. }
  rewrite E1. cbn [obind].
  destruct (decode_zone_ok okp need 2 (c0 + c1) c2 m1 S I G DN ltac:(lia) N2 ltac:(lia) C2 ltac:(lia) Hz2) as (m2 & E2 & A2 & B2).
  { intros i Hi Hk. rewrite (get_ext m1 mm); [rewrite get_sub; f_equal; apply Hm; [lia|exact Hk]|]. intros a Ha. rewrite B1; [apply B0|]; intros j Hj Hk' Ha'; revert Ha'; [apply (Dis (c0 + c1) c2 0 c0 i j a)|apply (Dis (c0 + c1) c2 c0 c1 i j a)]; auto; lia. }
  rewrite E2. cbn [obind]. exists m2. split; [reflexivity|]. split.
  - intros i Hi. destruct (okp i) eqn:Ek.
    + rewrite <- (Hm i ltac:(lia) Ek). apply get_ext. intros a Ha.
      assert (X : forall o b j, 0 <= j < m -> okp j = false -> ~ In a (sub o b (cell j))). { intros o b j Hj Hk Hs. apply in_sub in Hs. destruct DN as [_ D2]. apply (D2 i j a); auto; try lia. congruence. }
      rewrite B2 by (intros; now apply X). rewrite B1 by (intros; now apply X). apply B0. intros; now apply X.
    + rewrite (S0 m2 i ltac:(lia)). rewrite (A2 i Hi Ek).
      rewrite (get_ext m2 m1 (sub c0 c1 (cell i))) by (intros a Ha; apply B2; intros j Hj Hk' Ha'; revert Ha'; apply (Dis c0 c1 (c0 + c1) c2 i j a); auto; lia).
      rewrite (A1 i Hi Ek). rewrite (get_ext m2 m0 (sub 0 c0 (cell i))).
      2:{ intros a Ha. rewrite B2; [apply B1|]; intros j Hj Hk' Ha'; revert Ha'; [apply (Dis 0 c0 c0 c1 i j a)|apply (Dis 0 c0 (c0 + c1) c2 i j a)]; auto; lia. }
      rewrite (A0 i Hi Ek). pose proof (zlen_col i G ltac:(lia)) as Lc. unfold sub. rewrite (zdrop_0 0) by lia. rewrite <- (ztake_drop c0 (col i)) at 4. f_equal. rewrite <- (ztake_drop c1 (zdrop c0 (col i))) at 2. f_equal. rewrite zdrop_zdrop by lia. rewrite (Z.add_comm c1). apply ztake_all. rewrite zlen_drop by lia. lia.
  - intros a Ha. rewrite B2; [rewrite B1; [apply B0|]|]; intros j Hj Hk' Ha'; apply in_sub in Ha'; now apply (Ha j).
Qed.

(** what the caller gets, when the data columns in memory are right *)
Lemma data_right (V : Z -> Z) mm : sized -> in_stripe -> (forall i, 0 <= i < m -> get mm (du i) = map V (zrange ((lba + upos i) * B) ((lba + upos i + ulen i) * B))) ->
  get mm D = map V (zrange (lba * B) (elba * B)).
Proof.
  intros S I H. assert (X : forall n, Z.of_nat n <= m -> get mm (ztake (upos (Z.of_nat n) * B) D) = map V (zrange (lba * B) ((lba + upos (Z.of_nat n)) * B))).
  { induction n as [|n IH]; intros Hn.
    - cbn. rewrite upos_0 by assumption. rewrite ztake_0 by lia. rewrite zrange_empty by lia. reflexivity.
    - replace (Z.of_nat (Datatypes.S n)) with (Z.of_nat n + 1) by lia. destruct (upos_succ (Z.of_nat n) I) as (U1 & U2 & U3 & U4 & U5). rewrite U4. rewrite Z.mul_add_distr_r. rewrite ztake_add by nia. rewrite get_app. rewrite IH by lia. fold (sub (upos (Z.of_nat n) * B) (ulen (Z.of_nat n) * B) D). fold (du (Z.of_nat n)). rewrite H by lia. rewrite <- map_app. f_equal. rewrite Z.add_assoc. symmetry. apply zrange_split. nia. }
  pose proof m_pos. specialize (X (Z.to_nat m) ltac:(lia)). rewrite Z2Nat.id in X by lia. rewrite upos_m in X by assumption. rewrite ztake_all in X by (destruct S as [-> _]; lia). rewrite X. do 3 f_equal. lia.
Qed.
Lemma du_right (V : Z -> Z) mm i : sized -> in_stripe -> 0 <= i < m -> col i = map V (zrange (chk i * B) ((chk i + cs) * B)) -> get mm (du i) = sub (pre i * B) (ulen i * B) (col i) ->
  get mm (du i) = map V (zrange ((lba + upos i) * B) ((lba + upos i + ulen i) * B)).
Proof.
  intros S I Hi -> ->. rewrite <- map_sub. f_equal. destruct (upos_succ i I) as (U1 & U2 & U3 & _). pose proof (shape i I) as X. rewrite zrange_sub by (unfold ulen in *; nia).
  destruct (Z.eq_dec (ulen i) 0) as [E|E]; [rewrite E; rewrite !zrange_empty by nia; reflexivity|].
  assert (EX : lba + upos i = chk i + pre i) by (destruct X as [X|[X|[X|[X|[X|X]]]]]; lia). rewrite EX. f_equal; ring.
Qed.
Lemma cell_du mm i : sized -> in_stripe -> 0 <= i -> get mm (du i) = sub (pre i * B) (ulen i * B) (get mm (cell i)).
Proof.
  intros S I Hi. rewrite <- get_sub. f_equal. pose proof (zlen_du i S I) as Ld. destruct S as [_ S]. destruct (S i Hi) as [LA LB]. destruct (upos_succ i I) as (U1 & U2 & U3 & _). unfold cell. rewrite sub_app_r by nia. rewrite LA, Z.sub_diag. rewrite sub_app_l by nia. symmetry. apply sub_all. lia.
Qed.
End Stripe.
