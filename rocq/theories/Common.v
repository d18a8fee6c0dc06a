(** Small helpers shared by all the model files: integer ranges, counting,
    and list updates.  Nothing here models bfffs code. *)
From Coq Require Export List ZArith Lia Bool Arith.
From Coq Require Export ZifyBool ZifyNat.
Export ListNotations.
Global Open Scope Z_scope.

(** [zseq a len] is the list [a; a+1; ...] of length [len]. *)
Fixpoint zseq (a : Z) (len : nat) : list Z :=
  match len with
  | O => []
  | S l => a :: zseq (a + 1) l
  end.

(** The integers of the half-open interval [lo, hi). *)
Definition zrange (lo hi : Z) : list Z := zseq lo (Z.to_nat (hi - lo)).

Definition count {A} (p : A -> bool) (l : list A) : Z := Z.of_nat (length (filter p l)).

(** Functional update of the [i]-th element of a list. *)
Fixpoint list_upd {A} (l : list A) (i : nat) (x : A) : list A :=
  match l, i with
  | [], _ => []
  | _ :: t, O => x :: t
  | h :: t, S j => h :: list_upd t j x
  end.

Lemma zseq_length a len : length (zseq a len) = len.
Proof. revert a; induction len as [|l IH]; intros a; simpl; [reflexivity|]. now rewrite IH. Qed.

Lemma in_zseq x a len : In x (zseq a len) <-> a <= x < a + Z.of_nat len.
Proof.
  revert a; induction len as [|l IH]; intros a; cbn [zseq In].
  - split; [tauto | lia].
  - rewrite IH. lia.
Qed.

Lemma in_zrange x lo hi : In x (zrange lo hi) <-> lo <= x < hi.
Proof. unfold zrange. rewrite in_zseq. lia. Qed.

Lemma NoDup_zseq a len : NoDup (zseq a len).
Proof.
  revert a; induction len as [|l IH]; intros a; cbn [zseq]; constructor; auto.
  rewrite in_zseq. lia.
Qed.

Lemma NoDup_zrange lo hi : NoDup (zrange lo hi).
Proof. apply NoDup_zseq. Qed.

Lemma zrange_length lo hi : length (zrange lo hi) = Z.to_nat (hi - lo).
Proof. apply zseq_length. Qed.

Lemma zseq_app a l1 l2 : zseq a (l1 + l2) = zseq a l1 ++ zseq (a + Z.of_nat l1) l2.
Proof.
  revert a; induction l1 as [|l1 IH]; intros a; cbn [zseq Nat.add app].
  - f_equal. lia.
  - rewrite IH. do 3 f_equal. lia.
Qed.

Lemma zrange_split lo mid hi : lo <= mid <= hi -> zrange lo hi = zrange lo mid ++ zrange mid hi.
Proof.
  intros H. unfold zrange.
  replace (Z.to_nat (hi - lo)) with (Z.to_nat (mid - lo) + Z.to_nat (hi - mid))%nat by lia.
  rewrite zseq_app. do 2 f_equal. lia.
Qed.

Lemma zrange_empty lo hi : hi <= lo -> zrange lo hi = [].
Proof. intros H. unfold zrange. replace (Z.to_nat (hi - lo)) with O by lia. reflexivity. Qed.

Lemma zrange_cons lo hi : lo < hi -> zrange lo hi = lo :: zrange (lo + 1) hi.
Proof.
  intros H. unfold zrange. replace (Z.to_nat (hi - lo)) with (S (Z.to_nat (hi - (lo + 1)))) by lia.
  reflexivity.
Qed.

Lemma zrange_snoc lo hi : lo < hi -> zrange lo hi = zrange lo (hi - 1) ++ [hi - 1].
Proof.
  intros H. rewrite (zrange_split lo (hi - 1) hi) by lia. f_equal.
  rewrite zrange_cons by lia. f_equal. apply zrange_empty. lia.
Qed.

Lemma count_nonneg {A} (p : A -> bool) l : 0 <= count p l.
Proof. unfold count. lia. Qed.

Lemma count_app {A} (p : A -> bool) l1 l2 : count p (l1 ++ l2) = count p l1 + count p l2.
Proof. unfold count. rewrite filter_app, app_length. lia. Qed.

Lemma count_cons {A} (p : A -> bool) x l : count p (x :: l) = (if p x then 1 else 0) + count p l.
Proof. unfold count. simpl. destruct (p x); simpl length; lia. Qed.

Lemma count_nil {A} (p : A -> bool) : count p [] = 0.
Proof. reflexivity. Qed.

Lemma count_ext {A} (p q : A -> bool) l :
  (forall x, In x l -> p x = q x) -> count p l = count q l.
Proof.
  induction l as [|x l IH]; intros H; [reflexivity|].
  rewrite !count_cons. rewrite (H x) by (now left). rewrite IH; [reflexivity|].
  intros y Hy. apply H. now right.
Qed.

Lemma count_map {A B} (f : A -> B) (p : B -> bool) l :
  count p (map f l) = count (fun x => p (f x)) l.
Proof.
  induction l as [|x l IH]; [reflexivity|].
  cbn [map]. rewrite !count_cons, IH. reflexivity.
Qed.

Lemma count_all_false {A} (p : A -> bool) l : (forall x, In x l -> p x = false) -> count p l = 0.
Proof.
  induction l as [|x l IH]; intros H; [reflexivity|].
  rewrite count_cons, (H x), IH; [reflexivity| |now left].
  intros y Hy; apply H; now right.
Qed.

Lemma count_all_true {A} (p : A -> bool) l :
  (forall x, In x l -> p x = true) -> count p l = Z.of_nat (length l).
Proof.
  induction l as [|x l IH]; intros H; [reflexivity|].
  rewrite count_cons, (H x), IH; [|intros y Hy; apply H; now right | now left].
  cbn [length]. lia.
Qed.

Lemma count_le_length {A} (p : A -> bool) l : count p l <= Z.of_nat (length l).
Proof.
  induction l as [|x l IH]; [unfold count; simpl; lia|].
  rewrite count_cons. cbn [length]. destruct (p x); lia.
Qed.

(** Counting is invariant under an injective re-indexing. *)
Lemma count_perm_bij {A B} (p : A -> bool) (q : B -> bool) (l1 : list A) (l2 : list B) (g : A -> B) :
  NoDup l1 -> NoDup l2 ->
  (forall x, In x l1 -> p x = true -> In (g x) l2 /\ q (g x) = true) ->
  (forall x x', In x l1 -> In x' l1 -> p x = true -> p x' = true -> g x = g x' -> x = x') ->
  (forall y, In y l2 -> q y = true -> exists x, In x l1 /\ p x = true /\ g x = y) ->
  count p l1 = count q l2.
Proof.
  intros N1 N2 Hto Hinj Hsur. unfold count. f_equal.
  assert (Hle1 : (length (filter p l1) <= length (filter q l2))%nat).
  { rewrite <- (map_length g (filter p l1)).
    apply NoDup_incl_length.
    - assert (N1' : NoDup (filter p l1)) by (now apply NoDup_filter).
      assert (Hinj' : forall x x', In x (filter p l1) -> In x' (filter p l1) -> g x = g x' -> x = x').
      { intros x x' Hx Hx'. apply filter_In in Hx, Hx'. apply Hinj; tauto. }
      clear -N1' Hinj'. induction N1' as [|x l Hx Nl IH]; cbn [map]; constructor.
      + intros Hin. apply in_map_iff in Hin. destruct Hin as (x' & E & Hx').
        apply Hx. rewrite (Hinj' x x'); [exact Hx'|now left|now right|congruence].
      + apply IH. intros a b Ha Hb. apply Hinj'; now right.
    - intros y Hy. apply in_map_iff in Hy. destruct Hy as (x & <- & Hx).
      apply filter_In in Hx. apply filter_In. apply Hto; tauto. }
  assert (Hle2 : (length (filter q l2) <= length (filter p l1))%nat).
  { rewrite <- (map_length g (filter p l1)).
    apply NoDup_incl_length; [now apply NoDup_filter|].
    intros y Hy. apply filter_In in Hy. destruct Hy as [Hy Qy].
    destruct (Hsur y Hy Qy) as (x & Hx & Px & <-).
    apply in_map. apply filter_In. tauto. }
  lia.
Qed.

Lemma list_upd_length {A} (l : list A) i x : length (list_upd l i x) = length l.
Proof. revert i; induction l as [|h t IH]; intros [|i]; simpl; auto. Qed.

Lemma nth_list_upd_eq {A} (l : list A) i x d : (i < length l)%nat -> nth i (list_upd l i x) d = x.
Proof.
  revert i; induction l as [|h t IH]; intros [|i] H; simpl in *; try lia; auto.
  apply IH. lia.
Qed.

Lemma nth_list_upd_neq {A} (l : list A) i j x d : i <> j -> nth j (list_upd l i x) d = nth j l d.
Proof.
  revert i j; induction l as [|h t IH]; intros [|i] [|j] H; simpl; auto; try lia.
Qed.

(** Lists indexed by [Z]. *)
Definition zlen {A} (l : list A) : Z := Z.of_nat (length l).
Definition ztake {A} (i : Z) (l : list A) : list A := firstn (Z.to_nat i) l.
Definition zdrop {A} (i : Z) (l : list A) : list A := skipn (Z.to_nat i) l.
Definition zrepeat {A} (x : A) (i : Z) : list A := repeat x (Z.to_nat i).

Lemma zlen_nonneg {A} (l : list A) : 0 <= zlen l.
Proof. unfold zlen. lia. Qed.
Lemma zlen_app {A} (l1 l2 : list A) : zlen (l1 ++ l2) = zlen l1 + zlen l2.
Proof. unfold zlen. rewrite app_length. lia. Qed.
Lemma zlen_nil {A} : zlen (@nil A) = 0.
Proof. reflexivity. Qed.
Lemma zlen_cons {A} (x : A) l : zlen (x :: l) = 1 + zlen l.
Proof. unfold zlen. cbn [length]. lia. Qed.
Lemma zlen_repeat {A} (x : A) i : 0 <= i -> zlen (zrepeat x i) = i.
Proof. intros H. unfold zlen, zrepeat. rewrite repeat_length. lia. Qed.
Lemma zlen_take {A} i (l : list A) : 0 <= i <= zlen l -> zlen (ztake i l) = i.
Proof. intros H. unfold zlen, ztake in *. rewrite firstn_length. lia. Qed.
Lemma zlen_take_min {A} i (l : list A) : 0 <= i -> zlen (ztake i l) = Z.min i (zlen l).
Proof. intros H. unfold zlen, ztake in *. rewrite firstn_length. lia. Qed.
Lemma zlen_drop {A} i (l : list A) : 0 <= i -> zlen (zdrop i l) = Z.max 0 (zlen l - i).
Proof. intros H. unfold zlen, zdrop in *. rewrite skipn_length. lia. Qed.
Lemma ztake_drop {A} i (l : list A) : ztake i l ++ zdrop i l = l.
Proof. apply firstn_skipn. Qed.
Lemma ztake_all {A} i (l : list A) : zlen l <= i -> ztake i l = l.
Proof. intros H. unfold ztake, zlen in *. apply firstn_all2. lia. Qed.
Lemma zdrop_all {A} i (l : list A) : zlen l <= i -> zdrop i l = [].
Proof. intros H. unfold zdrop, zlen in *. apply skipn_all2. lia. Qed.
Lemma ztake_0 {A} i (l : list A) : i <= 0 -> ztake i l = [].
Proof. intros H. unfold ztake. replace (Z.to_nat i) with O by lia. reflexivity. Qed.
Lemma zdrop_0 {A} i (l : list A) : i <= 0 -> zdrop i l = l.
Proof. intros H. unfold zdrop. replace (Z.to_nat i) with O by lia. reflexivity. Qed.
Lemma ztake_app {A} i (l1 l2 : list A) :
  0 <= i -> ztake i (l1 ++ l2) = ztake i l1 ++ ztake (i - zlen l1) l2.
Proof.
  intros H. unfold ztake, zlen. rewrite firstn_app. do 2 f_equal. lia.
Qed.
Lemma zdrop_app {A} i (l1 l2 : list A) :
  0 <= i -> zdrop i (l1 ++ l2) = zdrop i l1 ++ zdrop (i - zlen l1) l2.
Proof. intros H. unfold zdrop, zlen. rewrite skipn_app. do 2 f_equal. lia. Qed.
Lemma zdrop_zdrop {A} i j (l : list A) : 0 <= i -> 0 <= j -> zdrop i (zdrop j l) = zdrop (i + j) l.
Proof.
  intros Hi Hj. unfold zdrop. replace (Z.to_nat (i + j)) with (Z.to_nat j + Z.to_nat i)%nat by lia.
  generalize (Z.to_nat i) as a, (Z.to_nat j) as b. intros a b. revert l.
  induction b as [|b IH]; intros [|x l]; simpl; auto. now destruct a.
Qed.
Lemma ztake_ztake {A} i j (l : list A) : 0 <= i -> 0 <= j -> ztake i (ztake j l) = ztake (Z.min i j) l.
Proof.
  intros Hi Hj. unfold ztake. rewrite firstn_firstn. f_equal. lia.
Qed.
Lemma ztake_zdrop_comm {A} i j (l : list A) : 0 <= i -> 0 <= j ->
  ztake i (zdrop j l) = zdrop j (ztake (i + j) l).
Proof.
  intros Hi Hj. unfold ztake, zdrop. rewrite firstn_skipn_comm. do 2 f_equal. lia.
Qed.
Lemma zlen_0_nil {A} (l : list A) : zlen l = 0 -> l = [].
Proof. destruct l; [auto|]. rewrite zlen_cons. pose proof (zlen_nonneg l). lia. Qed.
Lemma zlen_map {A B} (g : A -> B) l : zlen (map g l) = zlen l.
Proof. unfold zlen. now rewrite map_length. Qed.
Lemma zrepeat_app {A} (x : A) i j : 0 <= i -> 0 <= j -> zrepeat x i ++ zrepeat x j = zrepeat x (i + j).
Proof. intros Hi Hj. unfold zrepeat. rewrite <- repeat_app. f_equal. lia. Qed.

Lemma nth_zseq : forall n lo k d, (k < n)%nat -> nth k (zseq lo n) d = lo + Z.of_nat k.
Proof.
  induction n as [|n IH]; intros lo k d H; [lia|]. cbn [zseq]. destruct k as [|k]; cbn [nth]; [lia|].
  rewrite IH by lia. lia.
Qed.
Lemma nth_zrange lo hi k d : (k < Z.to_nat (hi - lo))%nat -> nth k (zrange lo hi) d = lo + Z.of_nat k.
Proof. intros H. unfold zrange. now apply nth_zseq. Qed.

Lemma lor_add a b n : 0 <= n -> 0 <= b < 2 ^ n -> Z.lor (Z.shiftl a n) b = a * 2 ^ n + b.
Proof.
  intros Hn Hb. rewrite <- Z.shiftl_mul_pow2 by lia. symmetry.
  rewrite Z.add_nocarry_lxor.
  - symmetry. apply Z.bits_inj'. intros i Hi. rewrite Z.lor_spec, Z.lxor_spec.
    destruct (Z.lt_ge_cases i n).
    + rewrite Z.shiftl_spec_low by lia. now destruct (Z.testbit b i).
    + assert (E : Z.testbit b i = false).
      { destruct (Z.eq_dec b 0) as [->|]; [apply Z.testbit_0_l|].
        apply Z.bits_above_log2; [lia|]. assert (Z.log2 b < n) by (apply Z.log2_lt_pow2; lia). lia. }
      rewrite E. rewrite xorb_false_r, orb_false_r. reflexivity.
  - apply Z.bits_inj'. intros i Hi. rewrite Z.land_spec, Z.bits_0.
    destruct (Z.lt_ge_cases i n).
    + rewrite Z.shiftl_spec_low by lia. reflexivity.
    + assert (E : Z.testbit b i = false).
      { destruct (Z.eq_dec b 0) as [->|]; [apply Z.testbit_0_l|].
        apply Z.bits_above_log2; [lia|]. assert (Z.log2 b < n) by (apply Z.log2_lt_pow2; lia). lia. }
      rewrite E. apply andb_false_r.
Qed.
