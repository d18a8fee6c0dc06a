(** Gauss-Jordan elimination over any field, and Cauchy matrices. *)
From Verif Require Import Common SG_Model SG_Props Codec_Model.
From Coq Require Import Field Field_theory Permutation.

(** * Lists *)
Lemma nth_mapi {A B} (g : nat -> A -> B) : forall l i k da db, (k < length l)%nat -> nth k (mapi i g l) db = g (i + k)%nat (nth k l da).
Proof.
  induction l as [|x l IH]; intros i k da db H; [cbn in H; lia|]. destruct k as [|k]; cbn [mapi nth]; [now rewrite Nat.add_0_r|]. cbn [length] in H.
  rewrite (IH (S i) k da db) by lia. f_equal. lia.
Qed.
Lemma mapi_length {A B} (g : nat -> A -> B) : forall l i, length (mapi i g l) = length l.
Proof. induction l as [|x l IH]; intros i; [reflexivity|]. cbn [mapi length]. now rewrite IH. Qed.
Lemma nth_nth_error_upd {A} (l : list A) i x k d : nth k (list_upd l i x) d = if (k =? i)%nat && (i <? length l)%nat then x else nth k l d.
Proof.
  destruct (Nat.eqb_spec k i) as [->|N]; cbn [andb].
  - destruct (Nat.ltb_spec i (length l)); [now apply nth_list_upd_eq|]. rewrite !nth_overflow; auto; rewrite ?list_upd_length; lia.
  - apply nth_list_upd_neq. auto.
Qed.
Lemma Forall_nth' {A} (P : A -> Prop) l : (forall k d, (k < length l)%nat -> P (nth k l d)) <-> Forall P l.
Proof. rewrite Forall_nth. split; intros H i; intros; apply H; auto. Qed.

Lemma nth_map_seq {A} (g : nat -> A) n k d : (k < n)%nat -> nth k (map g (seq O n)) d = g k.
Proof. intros H. rewrite (nth_indep _ d (g O)) by (rewrite map_length, seq_length; lia). rewrite map_nth, seq_nth by lia. reflexivity. Qed.

Section Field.
Context {F : Type} (f0 f1 : F) (fadd fmul fsub : F -> F -> F) (fopp : F -> F) (fdiv : F -> F -> F) (finv : F -> F).
Context (FT : field_theory f0 f1 fadd fmul fsub fopp fdiv finv (@eq F)).
Add Field FF : FT.
Context (nz : F -> bool) (NZ : forall x, nz x = false <-> x = f0).
Notation dot := (dot f0 fadd fmul).
Notation vscale := (vscale fmul).
Notation vsub := (vsub fsub).
Notation unit_row := (unit_row f0 f1).
Notation ident := (ident f0 f1).
Notation row := (list F * list F)%type.
Notation "0" := f0. Notation "1" := f1.
Infix "+" := fadd. Infix "-" := fsub. Infix "*" := fmul. Infix "/" := fdiv.
Notation mv M x := (map (fun r => dot r x) M).

Lemma one_nz : 1 <> 0. Proof. exact (F_1_neq_0 FT). Qed.
Lemma mul_integral a b : a * b = 0 -> a = 0 \/ b = 0.
Proof.
  intros H. destruct (nz a) eqn:E; [|left; now apply NZ]. right. assert (a <> 0) by (intros X; apply NZ in X; congruence).
  replace b with (finv a * (a * b)) by (field; auto). rewrite H. ring.
Qed.

(** ** Vectors *)
Lemma vsub_length : forall u v, length u = length v -> length (vsub u v) = length u.
Proof. induction u as [|a u IH]; intros [|b v] H; cbn in *; try lia. now rewrite IH by lia. Qed.
Lemma vscale_length c v : length (vscale c v) = length v.
Proof. apply map_length. Qed.
Lemma dot_vscale c : forall v x, dot (vscale c v) x = c * dot v x.
Proof. induction v as [|a v IH]; intros x; cbn; [ring|]. destruct x as [|y x]; cbn; [ring|]. fold (vscale c v). rewrite IH. ring. Qed.
Lemma dot_vsub : forall u v x, length u = length v -> dot (vsub u v) x = dot u x - dot v x.
Proof.
  induction u as [|a u IH]; intros [|b v] x H; cbn in *; try lia; [ring|]. destruct x as [|y x]; cbn; [ring|]. rewrite IH by lia. ring.
Qed.
Lemma nth_vscale c v i : nth i (vscale c v) 0 = c * nth i v 0.
Proof. unfold Codec_Model.vscale. replace 0 with (c * 0) at 1 by ring. apply map_nth. Qed.
Lemma nth_vsub : forall u v i, length u = length v -> nth i (vsub u v) 0 = nth i u 0 - nth i v 0.
Proof. induction u as [|a u IH]; intros [|b v] i H; cbn in *; try lia; [destruct i; ring|]. destruct i; [reflexivity|]. apply IH. lia. Qed.
Lemma dot_0_r : forall n u, dot u (repeat 0 n) = 0.
Proof. induction n as [|n IH]; intros [|a u]; cbn; try ring. rewrite IH. ring. Qed.
Lemma dot_0_l : forall n u, dot (repeat 0 n) u = 0.
Proof. induction n as [|n IH]; intros [|a u]; cbn; try ring. rewrite IH. ring. Qed.
Lemma dot_app : forall u1 u2 v1 v2, length u1 = length v1 -> dot (u1 ++ u2) (v1 ++ v2) = dot u1 v1 + dot u2 v2.
Proof. induction u1 as [|a u1 IH]; intros u2 [|b v1] v2 H; cbn in *; try lia; [ring|]. rewrite IH by lia. ring. Qed.

Lemma unit_row_length n i : length (unit_row n i) = n.
Proof. unfold Codec_Model.unit_row. now rewrite map_length, seq_length. Qed.
Lemma nth_unit_row n i j : (j < n)%nat -> nth j (unit_row n i) 0 = if (j =? i)%nat then 1 else 0.
Proof.
  intros H. unfold Codec_Model.unit_row. rewrite (nth_indep _ 0 (if (n =? i)%nat then 1 else 0)) by (rewrite map_length, seq_length; lia).
  rewrite (map_nth (fun j => if (j =? i)%nat then 1 else 0)). now rewrite seq_nth by lia.
Qed.
Lemma nth_ext0 (u v : list F) : length u = length v -> (forall j, (j < length u)%nat -> nth j u 0 = nth j v 0) -> u = v.
Proof. intros L H. apply (nth_ext u v 0 0 L H). Qed.
Lemma dot_unit_gen : forall n s i x, length x = n -> dot (map (fun j => if (j =? i)%nat then 1 else 0) (seq s n)) x = if ((s <=? i)%nat && (i <? s + n)%nat)%bool then nth (i - s) x 0 else 0.
Proof.
  induction n as [|n IH]; intros s i [|y x] L; cbn [length] in L; try lia.
  - cbn [seq map Codec_Model.dot]. assert (E : ((s <=? i)%nat && (i <? s + O)%nat)%bool = false) by lia. now rewrite E.
  - cbn [seq map Codec_Model.dot]. rewrite IH by lia. destruct (Nat.eqb_spec s i) as [->|N].
    + rewrite Nat.sub_diag. cbn [nth]. assert (E : ((S i <=? i)%nat && (i <? S i + n)%nat)%bool = false) by lia. rewrite E. assert (E2 : ((i <=? i)%nat && (i <? i + S n)%nat)%bool = true) by lia. rewrite E2. ring.
    + assert (E : ((S s <=? i)%nat && (i <? S s + n)%nat)%bool = ((s <=? i)%nat && (i <? s + S n)%nat)%bool) by lia. rewrite E. destruct ((s <=? i)%nat && (i <? s + S n)%nat)%bool eqn:E3; [|ring].
      replace (i - s)%nat with (S (i - S s)) by lia. cbn [nth]. ring.
Qed.
Lemma dot_unit n i x : length x = n -> (i < n)%nat -> dot (unit_row n i) x = nth i x 0.
Proof. intros L H. unfold Codec_Model.unit_row. rewrite dot_unit_gen by exact L. assert (E : ((O <=? i)%nat && (i <? O + n)%nat)%bool = true) by lia. rewrite E. now rewrite Nat.sub_0_r. Qed.

(** [b] tells how row [a] was made from the rows of [M] *)
Definition made (M : list (list F)) (n : nat) (r : row) : Prop :=
  length (fst r) = n /\ length (snd r) = length M /\ forall x, length x = n -> dot (fst r) x = dot (snd r) (mv M x).

Lemma made_scale M n c a b : made M n (a, b) -> made M n (vscale c a, vscale c b).
Proof. intros (A & B & H). unfold made. cbn [fst snd] in *. split; [now rewrite vscale_length|]. split; [now rewrite vscale_length|]. intros x L. cbn [fst snd]. now rewrite !dot_vscale, H. Qed.
Lemma made_sub M n a b a' b' : made M n (a, b) -> made M n (a', b') -> made M n (vsub a a', vsub b b').
Proof.
  intros (A & B & H) (A' & B' & H'). unfold made. cbn [fst snd] in *. split; [now rewrite vsub_length by congruence|]. split; [now rewrite vsub_length by congruence|].
  intros x L. cbn [fst snd]. rewrite !dot_vsub by congruence. now rewrite H, H'.
Qed.

Definition kernel_in (n : nat) (rows : list row) (M : list (list F)) : Prop :=
  forall x, length x = n -> (forall r, In r rows -> dot (fst r) x = 0) -> mv M x = repeat 0 (length M).
Definition cleared (i : nat) (rows : list row) : Prop :=
  forall k c, (k < length rows)%nat -> (c < i)%nat -> nth c (fst (nth k rows ([], []))) 0 = if (k =? c)%nat then 1 else 0.

Record GJ (M : list (list F)) (n i : nat) (rows : list row) : Prop := {
  gj_len : length rows = n;
  gj_made : Forall (made M n) rows;
  gj_ker : kernel_in n rows M;
  gj_clr : cleared i rows }.

Lemma find_pivot_spec i : forall rows idx,
  match find_pivot f0 nz i idx rows with
  | Some j => exists k, j = (idx + k)%nat /\ (k < length rows)%nat /\ (i <= j)%nat /\ nth i (fst (nth k rows ([], []))) 0 <> 0
  | None => forall k, (k < length rows)%nat -> (i <= idx + k)%nat -> nth i (fst (nth k rows ([], []))) 0 = 0
  end.
Proof.
  induction rows as [|r rows IH]; intros idx; cbn [find_pivot]; [intros k H; cbn in H; lia|].
  destruct ((i <=? idx)%nat && nz (nth i (fst r) 0)) eqn:E.
  - exists O. cbn [nth length]. apply andb_prop in E. destruct E as [E1 E2]. repeat split; try lia. intros X. apply NZ in X. congruence.
  - specialize (IH (S idx)). destruct (find_pivot f0 nz i (S idx) rows) as [j|].
    + destruct IH as (k & -> & Lk & Li & N). exists (S k). cbn [nth length]. repeat split; try lia; auto.
    + intros [|k] L Hi; cbn [nth length] in *.
      * apply NZ. apply andb_false_iff in E. destruct E as [E|E]; [lia|exact E].
      * apply IH; lia.
Qed.

Lemma swap_length i j (rows : list row) : length (swap i j rows) = length rows.
Proof. unfold swap. now rewrite !list_upd_length. Qed.
Lemma nth_swap (rows : list row) i j k : (i < length rows)%nat -> (j < length rows)%nat ->
  nth k (swap i j rows) ([], []) = if (k =? j)%nat then nth i rows ([], []) else if (k =? i)%nat then nth j rows ([], []) else nth k rows ([], []).
Proof.
  intros Li Lj. unfold swap. rewrite nth_nth_error_upd, list_upd_length. assert (E : (j <? length rows)%nat = true) by lia. rewrite E, andb_true_r.
  destruct (k =? j)%nat; [reflexivity|]. rewrite nth_nth_error_upd. assert (E2 : (i <? length rows)%nat = true) by lia. now rewrite E2, andb_true_r.
Qed.
Lemma swap_in (rows : list row) i j r : (i < length rows)%nat -> (j < length rows)%nat -> In r (swap i j rows) <-> In r rows.
Proof.
  intros Li Lj. split; intros H; apply (In_nth _ _ ([], [])) in H; destruct H as (k & Lk & <-).
  - rewrite swap_length in Lk. rewrite nth_swap by assumption. destruct (k =? j)%nat; [apply nth_In; lia|]. destruct (k =? i)%nat; apply nth_In; lia.
  - destruct (Nat.eq_dec k i) as [->|N1].
    + assert (X : nth j (swap i j rows) ([], []) = nth i rows ([], [])) by (rewrite nth_swap, Nat.eqb_refl by assumption; reflexivity). rewrite <- X. apply nth_In. now rewrite swap_length.
    + destruct (Nat.eq_dec k j) as [->|N2].
      * assert (X : nth i (swap i j rows) ([], []) = nth j rows ([], [])). { rewrite nth_swap by assumption. destruct (Nat.eqb_spec i j); [congruence|]. now rewrite Nat.eqb_refl. } rewrite <- X. apply nth_In. now rewrite swap_length.
      * assert (X : nth k (swap i j rows) ([], []) = nth k rows ([], [])). { rewrite nth_swap by assumption. destruct (Nat.eqb_spec k j); [congruence|]. destruct (Nat.eqb_spec k i); congruence. } rewrite <- X. apply nth_In. now rewrite swap_length.
Qed.

Lemma GJ_swap M n i j rows : GJ M n i rows -> (i <= j < n)%nat -> GJ M n i (swap i j rows).
Proof.
  intros [L Md K C] H. assert (Li : (i < length rows)%nat) by lia. assert (Lj : (j < length rows)%nat) by lia. split.
  - now rewrite swap_length.
  - apply Forall_forall. intros r Ir. apply swap_in in Ir; auto. exact (proj1 (Forall_forall _ _) Md r Ir).
  - intros x Lx Hx. apply K; [exact Lx|]. intros r Ir. apply Hx. now apply swap_in.
  - intros k c Lk Lc. rewrite swap_length in Lk. rewrite nth_swap by assumption. destruct (Nat.eqb_spec k j) as [->|N1].
    + rewrite C by lia. destruct (Nat.eqb_spec i c), (Nat.eqb_spec j c); try lia; reflexivity.
    + destruct (Nat.eqb_spec k i) as [->|N2]; [|apply C; lia]. rewrite C by lia. destruct (Nat.eqb_spec i c), (Nat.eqb_spec j c); try lia; reflexivity.
Qed.

Definition elim (i : nat) (ri : row) (idx : nat) (r : row) : row :=
  if (idx =? i)%nat then ri else let c := nth i (fst r) 0 in (vsub (fst r) (vscale c (fst ri)), vsub (snd r) (vscale c (snd ri))).

Lemma GJ_elim M n i rows a b : GJ M n i rows -> (i < n)%nat -> nth i rows ([], []) = (a, b) -> nth i a 0 <> 0 ->
  GJ M n (S i) (mapi O (elim i (vscale (finv (nth i a 0)) a, vscale (finv (nth i a 0)) b)) rows).
Proof.
  intros [L Md K C] Hi E Np. set (p := nth i a 0) in *. set (ri := (vscale (finv p) a, vscale (finv p) b)).
  assert (Mi : made M n (a, b)). { rewrite <- E. apply (proj1 (Forall_forall _ _) Md). apply nth_In. lia. }
  assert (Mri : made M n ri) by now apply made_scale.
  assert (Lri : length (fst ri) = n) by apply Mri.
  assert (Rp : nth i (fst ri) 0 = 1). { cbn [ri fst]. rewrite nth_vscale. fold p. field. exact Np. }
  assert (Nth : forall k, (k < n)%nat -> nth k (mapi O (elim i ri) rows) ([], []) = elim i ri k (nth k rows ([], []))) by (intros k Hk; apply nth_mapi; lia).
  assert (Mk : forall k, (k < n)%nat -> made M n (nth k rows ([], []))) by (intros k Hk; apply (proj1 (Forall_forall _ _) Md); apply nth_In; lia).
  split.
  - now rewrite mapi_length.
  - apply Forall_nth'. intros k d Lk. rewrite mapi_length in Lk. rewrite (nth_indep _ d ([], [])) by (rewrite mapi_length; lia). rewrite Nth by lia. unfold elim. destruct (k =? i)%nat; [exact Mri|]. specialize (Mk k ltac:(lia)). destruct (nth k rows ([], [])) as [ak bk]. apply made_sub; [exact Mk|]. now apply made_scale.
  - intros x Lx Hx. apply K; [exact Lx|].
    assert (Hi0 : dot (fst ri) x = 0). { specialize (Hx (nth i (mapi O (elim i ri) rows) ([], []))). rewrite Nth in Hx by lia. unfold elim in Hx. rewrite Nat.eqb_refl in Hx. apply Hx.
      assert (X : nth i (mapi O (elim i ri) rows) ([], []) = ri) by (rewrite Nth by lia; unfold elim; now rewrite Nat.eqb_refl). rewrite <- X at 1. apply nth_In. rewrite mapi_length. lia. }
    intros r Ir. apply (In_nth _ _ ([], [])) in Ir. destruct Ir as (k & Lk & <-). destruct (Nat.eq_dec k i) as [->|N].
    + rewrite E. cbn [fst]. cbn [ri fst] in Hi0. rewrite dot_vscale in Hi0. replace (dot a x) with (p * (finv p * dot a x)) by (field; exact Np). rewrite Hi0. ring.
    + specialize (Hx (nth k (mapi O (elim i ri) rows) ([], []))). assert (I0 : In (nth k (mapi O (elim i ri) rows) ([], [])) (mapi O (elim i ri) rows)) by (apply nth_In; rewrite mapi_length; lia).
      specialize (Hx I0). rewrite Nth in Hx by lia. unfold elim in Hx. destruct (Nat.eqb_spec k i); [congruence|]. cbn [fst] in Hx. rewrite dot_vsub, dot_vscale, Hi0 in Hx.
      * match type of Hx with ?d - ?c * 0 = 0 => transitivity (d - c * 0); [ring|exact Hx] end.
      * rewrite vscale_length, Lri. apply (Mk k). lia.
  - intros k c Lk Lc. rewrite mapi_length in Lk. rewrite Nth by lia. pose proof (Mk k ltac:(lia)) as (Lk1 & _).
    assert (Cri : forall c, (c < i)%nat -> nth c (fst ri) 0 = 0). { intros c' Lc'. cbn [ri fst]. rewrite nth_vscale. specialize (C i c' ltac:(lia) Lc'). rewrite E in C. cbn [fst] in C. rewrite C. destruct (Nat.eqb_spec i c'); [lia|]. ring. }
    unfold elim. destruct (Nat.eqb_spec k i) as [->|N].
    + destruct (Nat.eq_dec c i) as [->|N2]; [rewrite Nat.eqb_refl; exact Rp|]. destruct (Nat.eqb_spec i c); [lia|]. apply Cri. lia.
    + cbn [fst]. rewrite nth_vsub by (rewrite vscale_length, Lri; exact Lk1). rewrite nth_vscale. destruct (Nat.eq_dec c i) as [->|N2].
      * rewrite Rp. destruct (Nat.eqb_spec k i); [congruence|]. ring.
      * rewrite (Cri c) by lia. rewrite C by lia. ring.
Qed.

(** a column without a pivot is a combination of the earlier ones *)
Lemma GJ_no_pivot M n i rows : GJ M n i rows -> (i < n)%nat -> (forall k, (k < n)%nat -> (i <= k)%nat -> nth i (fst (nth k rows ([], []))) 0 = 0) ->
  exists x, length x = n /\ mv M x = repeat 0 (length M) /\ nth i x 0 = 1.
Proof.
  intros [L Md K C] Hi Z. pose (x := map (fun r : row => 0 - nth i (fst r) 0) (firstn i rows) ++ 1 :: repeat 0 (n - S i)).
  assert (L1 : length (map (fun r : row => 0 - nth i (fst r) 0) (firstn i rows)) = i) by (rewrite map_length, firstn_length; lia).
  exists x. assert (Lx : length x = n). { unfold x. rewrite app_length, L1. cbn [length]. rewrite repeat_length. lia. } split; [exact Lx|]. split.
  2:{ unfold x. rewrite app_nth2 by lia. rewrite L1, Nat.sub_diag. reflexivity. }
  apply K; [exact Lx|]. intros r Ir. apply (In_nth _ _ ([], [])) in Ir. destruct Ir as (k & Lk & <-).
  set (a := fst (nth k rows ([], []))). assert (La : length a = n) by (apply (proj1 (Forall_forall _ _) Md (nth k rows ([], []))); apply nth_In; lia).
  assert (Ea : a = firstn i a ++ nth i a 0 :: skipn (S i) a).
  { rewrite <- (firstn_skipn i a) at 1. f_equal. rewrite (skipn_nth a i (nth i a 0)); [reflexivity|]. apply nth_error_nth'. lia. }
  rewrite Ea. unfold x. rewrite dot_app by (rewrite L1, firstn_length; lia). cbn [Codec_Model.dot]. rewrite dot_0_r.
  assert (Ef : firstn i a = map (fun j => if (j =? k)%nat then 1 else 0) (seq O i)).
  { apply nth_ext0; [rewrite firstn_length, map_length, seq_length; lia|]. intros j Lj. rewrite firstn_length in Lj.
    rewrite nth_map_seq by lia.
    rewrite <- (firstn_skipn i a) in Lj. pose proof (C k j Lk ltac:(lia)) as X. fold a in X. rewrite <- (firstn_skipn i a), app_nth1 in X by (rewrite firstn_length; lia). rewrite X. rewrite Nat.eqb_sym. reflexivity. }
  rewrite Ef, dot_unit_gen by exact L1. destruct (Nat.ltb_spec k i) as [H|H].
  - assert (E : ((O <=? k)%nat && (k <? O + i)%nat)%bool = true) by lia. rewrite E, Nat.sub_0_r.
    rewrite (nth_indep _ 0 ((fun r : row => 0 - nth i (fst r) 0) ([], []))) by (rewrite L1; lia). rewrite (map_nth (fun r : row => 0 - nth i (fst r) 0)).
    assert (En : nth k (firstn i rows) ([], []) = nth k rows ([], [])) by (rewrite <- (firstn_skipn i rows) at 2; rewrite app_nth1 by (rewrite firstn_length; lia); reflexivity). rewrite En. fold a. ring.
  - assert (E : ((O <=? k)%nat && (k <? O + i)%nat)%bool = false) by lia. rewrite E. unfold a. rewrite (Z k) by lia. ring.
Qed.

Definition injective (n : nat) (M : list (list F)) : Prop := forall x, length x = n -> mv M x = repeat 0 (length M) -> x = repeat 0 n.

Lemma gj_step_ok M n i rows : GJ M n i rows -> (i < n)%nat -> injective n M -> exists rows', gj_step f0 fsub fmul finv nz rows i = Some rows' /\ GJ M n (S i) rows'.
Proof.
  intros HG Hi Inj. pose proof (gj_len _ _ _ _ HG) as L. unfold gj_step. pose proof (find_pivot_spec i rows O) as P. destruct (find_pivot f0 nz i O rows) as [j|].
  - destruct P as (k & -> & Lk & Hj & Np). cbn [Nat.add] in *. assert (HS : GJ M n i (swap i k rows)) by (apply GJ_swap; [exact HG|lia]).
    destruct (nth i (swap i k rows) ([], [])) as [a b] eqn:E. eexists. split; [reflexivity|]. apply GJ_elim; auto.
    rewrite nth_swap in E by lia. rewrite Nat.eqb_refl in E. destruct (Nat.eqb_spec i k) as [<-|]; rewrite E in Np; exact Np.
  - exfalso. destruct (GJ_no_pivot M n i rows HG Hi) as (x & Lx & K & N1); [intros k Lk Hk; apply P; lia|]. apply Inj in K; [|exact Lx]. rewrite K in N1. rewrite nth_repeat in N1. apply one_nz. now symmetry.
Qed.
Lemma gj_ok M n : injective n M -> forall cols i rows, GJ M n i rows -> cols = seq i (n - i) -> (i <= n)%nat -> exists rows', gj f0 fsub fmul finv nz rows cols = Some rows' /\ GJ M n n rows'.
Proof.
  intros Inj. induction cols as [|c cols IH]; intros i rows HG E Hi.
  - exists rows. split; [reflexivity|]. assert (i = n). { destruct (n - i)%nat eqn:D; [lia|discriminate]. } now subst.
  - destruct (n - i)%nat as [|d] eqn:D; [discriminate|]. cbn [seq] in E. injection E as -> E. cbn [gj]. destruct (gj_step_ok M n i rows HG ltac:(lia) Inj) as (rows' & -> & HG'). apply (IH (S i)); [exact HG'| |lia]. rewrite E. f_equal. lia.
Qed.


Lemma mv_nth M x k : (k < length M)%nat -> nth k (mv M x) 0 = dot (nth k M []) x.
Proof. intros H. rewrite (nth_indep _ 0 (dot [] x)) by (rewrite map_length; exact H). now rewrite (map_nth (fun r => dot r x)). Qed.

Lemma GJ_start M n : length M = n -> Forall (fun r => length r = n) M -> GJ M n O (combine M (ident n)).
Proof.
  intros L LM. assert (LI : length (ident n) = n) by (unfold Codec_Model.ident; now rewrite map_length, seq_length).
  assert (Nth : forall k, (k < n)%nat -> nth k (combine M (ident n)) ([], []) = (nth k M [], unit_row n k)).
  { intros k Hk. rewrite combine_nth by congruence. f_equal. unfold Codec_Model.ident. now apply nth_map_seq. }
  split.
  - rewrite combine_length, LI. lia.
  - apply Forall_nth'. intros k d Lk. rewrite combine_length in Lk. rewrite (nth_indep _ d ([], [])) by (rewrite combine_length; lia). rewrite Nth by lia. split; [|split]; cbn [fst snd].
    + apply (proj1 (Forall_forall _ _) LM). apply nth_In. lia.
    + rewrite unit_row_length. now rewrite L.
    + intros x Lx. rewrite dot_unit by (rewrite ?map_length; lia). now rewrite mv_nth by lia.
  - intros x Lx H. apply nth_ext0; [now rewrite map_length, repeat_length|]. intros j Lj. rewrite map_length in Lj. rewrite mv_nth, nth_repeat by lia.
    assert (X : In (nth j M [], unit_row n j) (combine M (ident n))) by (rewrite <- Nth by lia; apply nth_In; rewrite combine_length; lia). apply (H _ X).
  - intros k c _ Hc. lia.
Qed.

Theorem invert_ok M n : length M = n -> Forall (fun r => length r = n) M -> injective n M ->
  exists B, invert f0 f1 fsub fmul finv nz M = Some B /\ length B = n /\ forall k x, (k < n)%nat -> length x = n -> dot (nth k B []) (mv M x) = nth k x 0.
Proof.
  intros L LM Inj. unfold invert. rewrite L. destruct (gj_ok M n Inj (seq O n) O _ (GJ_start M n L LM)) as (rows & -> & [Lr Md K C]); [now rewrite Nat.sub_0_r|lia|].
  eexists. split; [reflexivity|]. split; [now rewrite map_length|]. intros k x Hk Lx.
  change (@nil F) with (snd (@nil F, @nil F)). rewrite (map_nth snd). pose proof (proj1 (Forall_forall _ _) Md (nth k rows ([], [])) ltac:(apply nth_In; lia)) as (A1 & A2 & A3). rewrite <- A3 by exact Lx.
  assert (Ek : fst (nth k rows ([], [])) = unit_row n k).
  { apply nth_ext0; [now rewrite A1, unit_row_length|]. intros j Lj. rewrite A1 in Lj. rewrite C by lia. rewrite nth_unit_row by lia. rewrite Nat.eqb_sym. reflexivity. }
  rewrite Ek. apply dot_unit; auto.
Qed.

(** ** Cauchy matrices *)
Fixpoint csum (g : F -> F) (E : list (F * F)) : F := match E with [] => 0 | (j, c) :: r => c * g j + csum g r end.
Lemma csum_ext g h E : (forall j c, In (j, c) E -> g j = h j) -> csum g E = csum h E.
Proof. induction E as [|[j c] E IH]; intros H; [reflexivity|]. cbn [csum]. rewrite (H j c) by (left; reflexivity). rewrite IH; [reflexivity|]. intros. eapply H. right. eauto. Qed.
Lemma csum_sub g h E : csum (fun j => g j - h j) E = csum g E - csum h E.
Proof. induction E as [|[j c] E IH]; cbn [csum]; [ring|]. rewrite IH. ring. Qed.
Lemma csum_scale k g E : csum (fun j => k * g j) E = k * csum g E.
Proof. induction E as [|[j c] E IH]; cbn [csum]; [ring|]. rewrite IH. ring. Qed.
Lemma csum_coef w g E : csum g (map (fun jc => (fst jc, snd jc * w (fst jc))) E) = csum (fun j => w j * g j) E.
Proof. induction E as [|[j c] E IH]; cbn [csum map fst snd]; [reflexivity|]. rewrite IH. ring. Qed.

Lemma sub_nz a b : a <> b -> a - b <> 0.
Proof. intros N H. apply N. replace a with (a - b + b) by ring. rewrite H. ring. Qed.

Lemma cauchy_n : forall n E P, length E = n -> NoDup (map fst E) -> NoDup P -> (length E <= length P)%nat -> (forall i j, In i P -> In j (map fst E) -> i <> j) ->
  (forall i, In i P -> csum (fun j => finv (i - j)) E = 0) -> Forall (fun jc => snd jc = 0) E.
Proof.
  induction n as [|n IH]; intros [|[j0 c0] E] P Ln ND NP L D H; try discriminate Ln; [constructor|]. destruct P as [|i0 P]; [cbn in L; lia|]. injection Ln as Ln.
  cbn [map fst] in *. inversion ND as [|? ? Nj NE]; subst. inversion NP as [|? ? Ni NP']; subst.
  assert (D0 : i0 - j0 <> 0) by (apply sub_nz; apply D; left; reflexivity).
  assert (F2 : Forall (fun jc => snd jc = 0) (map (fun jc => (fst jc, snd jc * ((fst jc - j0) * finv (i0 - fst jc)))) E)).
  { apply (IH _ P).
    - now rewrite map_length.
    - rewrite map_map. cbn [fst]. exact NE.
    - exact NP'.
    - rewrite map_length. cbn [length] in L. lia.
    - intros i j Ii Ij. rewrite map_map in Ij. cbn [fst] in Ij. apply D; right; assumption.
    - intros i Ii. rewrite (csum_coef (fun j => (j - j0) * finv (i0 - j))).
      assert (Di : i - j0 <> 0) by (apply sub_nz; apply D; [right; exact Ii|left; reflexivity]).
      assert (Dii : i - i0 <> 0) by (apply sub_nz; intros ->; contradiction).
      pose proof (H i (or_intror Ii)) as Hi. pose proof (H i0 (or_introl eq_refl)) as Hi0. cbn [csum] in Hi, Hi0.
      assert (X : csum (fun j => (j - j0) * finv (i0 - j) * finv (i - j)) E = csum (fun j => finv (i - i0) * ((i0 - j0) * finv (i0 - j) - (i - j0) * finv (i - j))) E).
      { apply csum_ext. intros j c Ij. assert (Ij' : In j (map fst E)) by (apply in_map_iff; exists (j, c); auto).
        assert (i - j <> 0) by (apply sub_nz; apply D; right; assumption). assert (i0 - j <> 0) by (apply sub_nz; apply D; [left; reflexivity|right; assumption]). field. auto. }
      rewrite X, csum_scale, csum_sub, !csum_scale.
      assert (E1 : csum (fun j => finv (i - j)) E = 0 - c0 * finv (i - j0)). { set (S1 := csum _ E) in *. replace S1 with (c0 * finv (i - j0) + S1 - c0 * finv (i - j0)) by ring. rewrite Hi. ring. }
      assert (E2 : csum (fun j => finv (i0 - j)) E = 0 - c0 * finv (i0 - j0)). { set (S1 := csum (fun j => finv (i0 - j)) E) in *. replace S1 with (c0 * finv (i0 - j0) + S1 - c0 * finv (i0 - j0)) by ring. rewrite Hi0. ring. }
      rewrite E1, E2. field. auto. }
  assert (FE : Forall (fun jc => snd jc = 0) E).
  { apply Forall_forall. intros [j c] Ij. rewrite Forall_map in F2. cbn [fst snd] in F2. pose proof (proj1 (Forall_forall _ _) F2 _ Ij) as Z. cbn [fst snd] in Z |- *.
    assert (Ij' : In j (map fst E)) by (apply in_map_iff; exists (j, c); auto).
    assert (i0 - j <> 0) by (apply sub_nz; apply D; [left; reflexivity|right; assumption]). assert (j - j0 <> 0) by (apply sub_nz; intros ->; contradiction).
    apply mul_integral in Z. destruct Z as [Z|Z]; [exact Z|]. exfalso. apply mul_integral in Z. destruct Z as [Z|Z]; [contradiction|]. apply one_nz. replace 1 with ((i0 - j) * finv (i0 - j)) by (field; auto). rewrite Z. ring. }
  constructor; [|exact FE]. cbn [snd].
  assert (Z : csum (fun j => finv (i0 - j)) E = 0). { clear - FT FE. induction E as [|[j c] E IHE]; [reflexivity|]. inversion FE; subst. cbn [csum snd] in *. subst c. rewrite IHE by assumption. ring. }
  specialize (H i0 (or_introl eq_refl)). cbn [csum] in H. rewrite Z in H. replace (c0 * finv (i0 - j0) + 0) with (c0 * finv (i0 - j0)) in H by ring. apply mul_integral in H. destruct H as [H|H]; [exact H|].
  exfalso. apply one_nz. replace 1 with ((i0 - j0) * finv (i0 - j0)) by (field; auto). rewrite H. ring.
Qed.
Lemma cauchy E P : NoDup (map fst E) -> NoDup P -> (length E <= length P)%nat -> (forall i j, In i P -> In j (map fst E) -> i <> j) ->
  (forall i, In i P -> csum (fun j => finv (i - j)) E = 0) -> Forall (fun jc => snd jc = 0) E.
Proof. apply (cauchy_n (length E)). reflexivity. Qed.
End Field.
