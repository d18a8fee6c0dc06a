(** Ordered maps keyed by integers, as sorted association lists.  This is the
    model of the Rust standard library's [BTreeMap] and [BTreeSet]: iteration
    is in increasing key order.  Nothing here models bfffs code. *)
From Verif Require Import Common.
From Coq Require Import Sorting.Sorted.

Section ZMap.
Context {A : Type}.
Implicit Types m : list (Z * A).

Fixpoint zm_get (k : Z) m : option A :=
  match m with
  | [] => None
  | (k', v) :: r => if k =? k' then Some v else zm_get k r
  end.

(** [BTreeMap::insert] *)
Fixpoint zm_set (k : Z) (v : A) m : list (Z * A) :=
  match m with
  | [] => [(k, v)]
  | (k', v') :: r =>
      if k <? k' then (k, v) :: m
      else if k =? k' then (k, v) :: r
      else (k', v') :: zm_set k v r
  end.

(** [BTreeMap::remove] *)
Fixpoint zm_del (k : Z) m : list (Z * A) :=
  match m with
  | [] => []
  | (k', v') :: r => if k =? k' then r else (k', v') :: zm_del k r
  end.

Definition zm_mem (k : Z) m : bool := match zm_get k m with Some _ => true | None => false end.

Definition zm_ok m : Prop := StronglySorted Z.lt (map fst m).

Lemma zm_ok_nil : zm_ok [].
Proof. constructor. Qed.

Lemma zm_ok_cons k v m : zm_ok ((k, v) :: m) <-> zm_ok m /\ Forall (fun p => k < fst p) m.
Proof.
  unfold zm_ok. cbn [map fst]. split.
  - intros H. inversion H; subst. split; auto. now apply Forall_map.
  - intros [H1 H2]. constructor; auto. now apply Forall_map.
Qed.

Lemma zm_get_in k v m : zm_get k m = Some v -> In (k, v) m.
Proof.
  induction m as [|[k' v'] r IH]; cbn [zm_get]; [easy|].
  destruct (Z.eqb_spec k k') as [->|N].
  - intros [= ->]. now left.
  - intros H. right. auto.
Qed.

Lemma zm_get_lt k m : Forall (fun p => k < fst p) m -> zm_get k m = None.
Proof.
  induction m as [|[k' v'] r IH]; cbn [zm_get]; [easy|].
  intros H. inversion H; subst. cbn [fst] in *. destruct (Z.eqb_spec k k'); [lia|auto].
Qed.

Lemma zm_in_get k v m : zm_ok m -> In (k, v) m -> zm_get k m = Some v.
Proof.
  induction m as [|[k' v'] r IH]; cbn [zm_get]; [easy|].
  intros H. apply zm_ok_cons in H. destruct H as [H1 H2].
  intros [E|Hin].
  - inversion E; subst. now rewrite Z.eqb_refl.
  - rewrite Forall_forall in H2. specialize (H2 _ Hin). cbn [fst] in H2.
    destruct (Z.eqb_spec k k'); [lia|auto].
Qed.

Lemma zm_set_fst k v m p : In p (zm_set k v m) -> p = (k, v) \/ In p m.
Proof.
  induction m as [|[k' v'] r IH]; cbn [zm_set].
  - intros [<-|[]]. now left.
  - destruct (k <? k'); [|destruct (k =? k')].
    + intros [<-|H]; [now left|now right].
    + intros [<-|H]; [now left|right; now right].
    + intros [<-|H]; [right; now left|]. destruct (IH H); [now left|right; now right].
Qed.

Lemma zm_del_in k m p : In p (zm_del k m) -> In p m.
Proof.
  induction m as [|[k' v'] r IH]; cbn [zm_del]; [easy|].
  destruct (k =? k'); [now right|]. intros [<-|H]; [now left|right; auto].
Qed.

Lemma zm_ok_set k v m : zm_ok m -> zm_ok (zm_set k v m).
Proof.
  induction m as [|[k' v'] r IH]; intros H.
  - apply zm_ok_cons. split; [apply zm_ok_nil|constructor].
  - cbn [zm_set]. pose proof H as H0. apply zm_ok_cons in H0. destruct H0 as [H1 H2].
    destruct (Z.ltb_spec k k').
    + apply zm_ok_cons. split; auto. constructor; [easy|].
      eapply Forall_impl; [|exact H2]. cbn. intros; lia.
    + destruct (Z.eqb_spec k k') as [->|N].
      * apply zm_ok_cons. auto.
      * apply zm_ok_cons. split; auto. apply Forall_forall. intros p Hp.
        apply zm_set_fst in Hp. destruct Hp as [->|Hp]; [cbn; lia|].
        rewrite Forall_forall in H2. now apply H2.
Qed.

Lemma zm_ok_del k m : zm_ok m -> zm_ok (zm_del k m).
Proof.
  induction m as [|[k' v'] r IH]; intros H; [exact H|].
  cbn [zm_del]. pose proof H as H0. apply zm_ok_cons in H0. destruct H0 as [H1 H2].
  destruct (Z.eqb_spec k k'); [exact H1|].
  apply zm_ok_cons. split; auto. apply Forall_forall. intros p Hp.
  apply zm_del_in in Hp. rewrite Forall_forall in H2. now apply H2.
Qed.

Lemma zm_get_set k v m j : zm_ok m -> zm_get j (zm_set k v m) = if j =? k then Some v else zm_get j m.
Proof.
  induction m as [|[k' v'] r IH]; intros H; [reflexivity|].
  cbn [zm_set]. pose proof H as H0. apply zm_ok_cons in H0. destruct H0 as [H1 H2].
  destruct (Z.ltb_spec k k').
  - reflexivity.
  - destruct (Z.eqb_spec k k') as [->|N].
    + cbn [zm_get]. now destruct (j =? k').
    + cbn [zm_get]. rewrite IH by auto. destruct (Z.eqb_spec j k'), (Z.eqb_spec j k); subst; try reflexivity; lia.
Qed.

Lemma zm_get_del k m j : zm_ok m -> zm_get j (zm_del k m) = if j =? k then None else zm_get j m.
Proof.
  induction m as [|[k' v'] r IH]; intros H; [now destruct (j =? k)|].
  cbn [zm_del]. pose proof H as H0. apply zm_ok_cons in H0. destruct H0 as [H1 H2].
  destruct (Z.eqb_spec k k') as [->|N].
  - destruct (Z.eqb_spec j k') as [Ej|Nj].
    + rewrite Ej. apply zm_get_lt. exact H2.
    + cbn [zm_get]. destruct (Z.eqb_spec j k'); [contradiction|reflexivity].
  - cbn [zm_get]. rewrite IH by auto. destruct (Z.eqb_spec j k'), (Z.eqb_spec j k); subst; try reflexivity; lia.
Qed.

Lemma zm_ext m1 m2 : zm_ok m1 -> zm_ok m2 -> (forall k, zm_get k m1 = zm_get k m2) -> m1 = m2.
Proof.
  revert m2; induction m1 as [|[k1 v1] r1 IH]; intros m2 H1 H2 E.
  - destruct m2 as [|[k2 v2] r2]; [reflexivity|].
    specialize (E k2). cbn [zm_get] in E. rewrite Z.eqb_refl in E. discriminate.
  - destruct m2 as [|[k2 v2] r2].
    + specialize (E k1). cbn [zm_get] in E. rewrite Z.eqb_refl in E. discriminate.
    + apply zm_ok_cons in H1, H2. destruct H1 as [O1 F1], H2 as [O2 F2].
      assert (k1 = k2).
      { destruct (Z.lt_trichotomy k1 k2) as [L|[->|L]]; [exfalso| reflexivity |exfalso].
        - pose proof (E k1) as X. cbn [zm_get] in X. rewrite Z.eqb_refl in X.
          destruct (Z.eqb_spec k1 k2); [lia|].
          rewrite zm_get_lt in X; [discriminate|].
          eapply Forall_impl; [|exact F2]. cbn; intros; lia.
        - pose proof (E k2) as X. cbn [zm_get] in X. rewrite Z.eqb_refl in X.
          destruct (Z.eqb_spec k2 k1); [lia|].
          rewrite zm_get_lt in X; [discriminate|].
          eapply Forall_impl; [|exact F1]. cbn; intros; lia. }
      subst k2. pose proof (E k1) as X. cbn [zm_get] in X. rewrite Z.eqb_refl in X.
      injection X as ->. f_equal. apply IH; auto. intros k. specialize (E k). cbn [zm_get] in E.
      destruct (Z.eqb_spec k k1); [|exact E]. subst.
      now rewrite !zm_get_lt by assumption.
Qed.

Lemma zm_mem_get k m : zm_mem k m = true <-> exists v, zm_get k m = Some v.
Proof.
  unfold zm_mem. destruct (zm_get k m); split; try easy; [eauto|now intros [? ?]].
Qed.

Lemma zm_mem_false k m : zm_mem k m = false <-> zm_get k m = None.
Proof. unfold zm_mem. now destruct (zm_get k m). Qed.

Lemma zm_mem_set k v m j : zm_ok m -> zm_mem j (zm_set k v m) = (j =? k) || zm_mem j m.
Proof. intros H. unfold zm_mem. rewrite zm_get_set by auto. now destruct (j =? k). Qed.

Lemma zm_mem_del k m j : zm_ok m -> zm_mem j (zm_del k m) = negb (j =? k) && zm_mem j m.
Proof. intros H. unfold zm_mem. rewrite zm_get_del by auto. now destruct (j =? k). Qed.

Lemma zm_mem_in k m : zm_mem k m = true -> exists v, In (k, v) m.
Proof. rewrite zm_mem_get. intros [v H]. exists v. now apply zm_get_in. Qed.

(** Keeping the entries whose key satisfies a predicate. *)
Lemma zm_ok_filter (p : Z * A -> bool) m : zm_ok m -> zm_ok (filter p m).
Proof.
  induction m as [|[k v] r IH]; intros H; [exact H|].
  pose proof H as H0. apply zm_ok_cons in H0. destruct H0 as [H1 H2]. cbn [filter].
  destruct (p (k, v)); [|auto]. apply zm_ok_cons. split; [auto|].
  rewrite Forall_forall in *. intros x Hx. apply filter_In in Hx. now apply H2.
Qed.

Lemma zm_get_filter_key (p : Z -> bool) m j :
  zm_get j (filter (fun q => p (fst q)) m) = if p j then zm_get j m else None.
Proof.
  induction m as [|[k v] r IH]; cbn [filter zm_get fst]; [now destruct (p j)|].
  destruct (p k) eqn:E; cbn [zm_get].
  - destruct (Z.eqb_spec j k) as [Ej|]; [rewrite Ej, E; reflexivity|exact IH].
  - destruct (Z.eqb_spec j k) as [Ej|]; [rewrite Ej, E in *; exact IH|exact IH].
Qed.

End ZMap.

(** Lists indexed by integers. *)
Section LGet.
Context {A : Type}.
Implicit Types l : list A.

Definition lget (l : list A) (i : Z) : option A :=
  if i <? 0 then None else nth_error l (Z.to_nat i).

Definition lset (l : list A) (i : Z) (x : A) : list A :=
  if i <? 0 then l else list_upd l (Z.to_nat i) x.

Lemma lget_some l i : 0 <= i < zlen l -> exists x, lget l i = Some x.
Proof.
  intros H. unfold lget. destruct (Z.ltb_spec i 0); [lia|].
  destruct (nth_error l (Z.to_nat i)) eqn:E; [eauto|].
  apply nth_error_None in E. unfold zlen in H. lia.
Qed.

Lemma lget_range l i x : lget l i = Some x -> 0 <= i < zlen l.
Proof.
  unfold lget. destruct (Z.ltb_spec i 0); [discriminate|].
  intros E. assert (nth_error l (Z.to_nat i) <> None) as N by congruence.
  apply nth_error_Some in N. unfold zlen. lia.
Qed.

Lemma lget_none l i : ~ (0 <= i < zlen l) -> lget l i = None.
Proof.
  intros H. destruct (lget l i) eqn:E; [|reflexivity]. apply lget_range in E. lia.
Qed.

Lemma list_upd_nth_error l i x j :
  nth_error (list_upd l i x) j = if (j =? i)%nat then (match nth_error l i with Some _ => Some x | None => None end)
                                 else nth_error l j.
Proof.
  revert i j; induction l as [|h t IH]; intros i j.
  - cbn. destruct (Nat.eqb_spec j i); [subst; now destruct i|reflexivity].
  - destruct i as [|i], j as [|j]; cbn [list_upd nth_error]; try reflexivity.
    rewrite IH. reflexivity.
Qed.

Lemma lset_len l i x : zlen (lset l i x) = zlen l.
Proof. unfold lset, zlen. destruct (i <? 0); [reflexivity|]. now rewrite list_upd_length. Qed.

Lemma lget_lset l i x j : 0 <= i < zlen l -> lget (lset l i x) j = if j =? i then Some x else lget l j.
Proof.
  intros H. unfold lget, lset. destruct (Z.ltb_spec i 0); [lia|].
  destruct (Z.ltb_spec j 0).
  - destruct (Z.eqb_spec j i); [lia|reflexivity].
  - rewrite list_upd_nth_error.
    destruct (Z.eqb_spec j i) as [->|N].
    + rewrite Nat.eqb_refl. destruct (nth_error l (Z.to_nat i)) eqn:E; [reflexivity|].
      apply nth_error_None in E. unfold zlen in H. lia.
    + destruct (Nat.eqb_spec (Z.to_nat j) (Z.to_nat i)); [lia|reflexivity].
Qed.

Lemma lget_app l1 l2 i : lget (l1 ++ l2) i = if i <? zlen l1 then lget l1 i else lget l2 (i - zlen l1).
Proof.
  unfold lget, zlen. destruct (Z.ltb_spec i 0).
  - destruct (Z.ltb_spec i (Z.of_nat (length l1))); [reflexivity|lia].
  - destruct (Z.ltb_spec i (Z.of_nat (length l1))).
    + apply nth_error_app1. lia.
    + destruct (Z.ltb_spec (i - Z.of_nat (length l1)) 0); [lia|].
      rewrite nth_error_app2 by lia. f_equal. lia.
Qed.

End LGet.

Lemma lget_repeat {A} (x : A) n i : 0 <= i < Z.of_nat n -> lget (repeat x n) i = Some x.
Proof.
  intros H. unfold lget. destruct (Z.ltb_spec i 0); [lia|].
  destruct (nth_error (repeat x n) (Z.to_nat i)) eqn:E.
  - apply nth_error_In in E. apply repeat_spec in E. now subst.
  - apply nth_error_None in E. rewrite repeat_length in E. lia.
Qed.

(** Sums over an integer range. *)
Definition zsum (lo hi : Z) (f : Z -> Z) : Z := fold_right (fun z a => f z + a) 0 (zrange lo hi).

Lemma fold_add_ext (f g : Z -> Z) l : (forall z, In z l -> f z = g z) ->
  fold_right (fun z a => f z + a) 0 l = fold_right (fun z a => g z + a) 0 l.
Proof. induction l as [|x l IH]; intros H; [reflexivity|]. cbn. rewrite H by now left. rewrite IH; [reflexivity|]. intros; apply H; now right. Qed.

Lemma zsum_ext lo hi f g : (forall z, lo <= z < hi -> f z = g z) -> zsum lo hi f = zsum lo hi g.
Proof. intros H. apply fold_add_ext. intros z Hz. apply H. now apply in_zrange. Qed.

Lemma fold_add_app (f : Z -> Z) l1 l2 :
  fold_right (fun z a => f z + a) 0 (l1 ++ l2) = fold_right (fun z a => f z + a) 0 l1 + fold_right (fun z a => f z + a) 0 l2.
Proof. induction l1 as [|x l IH]; cbn; [lia|]. rewrite IH. lia. Qed.

Lemma zsum_empty lo hi f : hi <= lo -> zsum lo hi f = 0.
Proof. intros H. unfold zsum. now rewrite zrange_empty. Qed.

Lemma zsum_split lo mid hi f : lo <= mid <= hi -> zsum lo hi f = zsum lo mid f + zsum mid hi f.
Proof. intros H. unfold zsum. now rewrite (zrange_split lo mid hi), fold_add_app by lia. Qed.

Lemma zsum_cons lo hi f : lo < hi -> zsum lo hi f = f lo + zsum (lo + 1) hi f.
Proof. intros H. unfold zsum. now rewrite zrange_cons. Qed.

Lemma zsum_snoc lo hi f : lo < hi -> zsum lo hi f = zsum lo (hi - 1) f + f (hi - 1).
Proof. intros H. rewrite (zsum_split lo (hi-1) hi) by lia. f_equal. rewrite zsum_cons by lia.
  rewrite zsum_empty by lia. lia. Qed.

Lemma zsum_zero lo hi f : (forall z, lo <= z < hi -> f z = 0) -> zsum lo hi f = 0.
Proof.
  intros H. unfold zsum. assert (X : forall z, In z (zrange lo hi) -> f z = 0).
  { intros z Hz. apply H. now apply in_zrange. }
  induction (zrange lo hi) as [|x l IH]; [reflexivity|]. cbn. rewrite X by now left.
  rewrite IH; [reflexivity|]. intros; apply X; now right.
Qed.

(** Changing one summand. *)
Lemma zsum_upd lo hi f g k : lo <= k < hi -> (forall z, lo <= z < hi -> z <> k -> g z = f z) ->
  zsum lo hi g = zsum lo hi f - f k + g k.
Proof.
  intros Hk H. rewrite !(zsum_split lo k hi), !(zsum_cons k hi) by lia.
  rewrite (zsum_ext lo k g f) by (intros; apply H; lia).
  rewrite (zsum_ext (k+1) hi g f) by (intros; apply H; lia). lia.
Qed.

Lemma zsum_add lo hi f g : zsum lo hi (fun z => f z + g z) = zsum lo hi f + zsum lo hi g.
Proof. unfold zsum. induction (zrange lo hi) as [|x l IH]; cbn; [reflexivity|]. rewrite IH. lia. Qed.

Lemma zsum_nonneg lo hi f : (forall z, lo <= z < hi -> 0 <= f z) -> 0 <= zsum lo hi f.
Proof.
  intros H. unfold zsum. assert (X : forall z, In z (zrange lo hi) -> 0 <= f z).
  { intros z Hz. apply H. now apply in_zrange. }
  induction (zrange lo hi) as [|x l IH]; cbn; [lia|].
  pose proof (X x ltac:(now left)). assert (0 <= fold_right (fun z a => f z + a) 0 l); [|lia].
  apply IH. intros; apply X; now right.
Qed.

Lemma zsum_le lo hi f g : (forall z, lo <= z < hi -> f z <= g z) -> zsum lo hi f <= zsum lo hi g.
Proof.
  intros H. unfold zsum. assert (X : forall z, In z (zrange lo hi) -> f z <= g z).
  { intros z Hz. apply H. now apply in_zrange. }
  induction (zrange lo hi) as [|x l IH]; cbn; [lia|].
  pose proof (X x ltac:(now left)). assert (fold_right (fun z a => f z + a) 0 l <= fold_right (fun z a => g z + a) 0 l); [|lia].
  apply IH. intros; apply X; now right.
Qed.
