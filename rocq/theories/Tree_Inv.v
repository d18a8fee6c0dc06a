(** * Invariants of the B-tree and basic lemmas *)
From Verif Require Import Common ZMap Tree_Model.
From Coq Require Import Permutation.

Section Inv.
Context {V : Type}.
Notation elem := (@elem V).
Notation node := (@node V).
Notation tree := (@tree V).

(** the key/value pairs stored in a subtree of height [h], from left to right *)
Fixpoint flat (h : nat) (n : node) : list (Z * V) :=
  match h, n with
  | O, Leaf l => l
  | S h', Int cs => flat_map (fun e => flat h' (e_node e)) cs
  | _, _ => []
  end.

Definition lt_opt (k : Z) (hi : option Z) : Prop := match hi with Some b => k < b | None => True end.
Definition le_opt (a b : option Z) : Prop :=
  match b with None => True | Some y => match a with Some x => x <= y | None => False end end.
Definition nextkey (hi : option Z) (r : list elem) : option Z :=
  match r with [] => hi | e :: _ => Some (e_key e) end.

(** [P] holds of every element together with the key of its right neighbour; keys increase from [lo] *)
Fixpoint chain (P : elem -> option Z -> Prop) (lo : Z) (hi : option Z) (cs : list elem) : Prop :=
  match cs with
  | [] => True
  | e :: r => lo <= e_key e /\ P e (nextkey hi r) /\ chain P (e_key e + 1) hi r
  end.

(** every node strictly below is on disk *)
Fixpoint clean (h : nat) (n : node) : Prop :=
  match h, n with
  | S h', Int cs => Forall (fun e => e_ptr e <> None /\ clean h' (e_node e)) cs
  | _, _ => True
  end.

Section Lens.
(** [mi], [ml]: lower bounds for the number of children/items of nodes other than the root *)
Context (lim : limits) (mi ml : nat).

Definition len_ok (n : node) : Prop :=
  match n with
  | Leaf l => (ml <= length l <= max_leaf lim)%nat
  | Int cs => (mi <= length cs <= max_int lim)%nat
  end.

Fixpoint good (h : nat) (lo : Z) (hi : option Z) (ts te : Z) (n : node) : Prop :=
  match h, n with
  | O, Leaf l => zm_ok l /\ Forall (fun p => lo <= fst p /\ lt_opt (fst p) hi) l
  | S h', Int cs =>
      chain (fun e nx =>
        lt_opt (e_key e) nx /\ e_ts e < e_te e /\ len_ok (e_node e) /\
        (match e_ptr e with None => True | Some a => e_ts e <= a_txg a < e_te e /\ clean h' (e_node e) end) /\
        good h' (e_key e) nx (e_ts e) (e_te e) (e_node e)) lo hi cs
      /\ Forall (fun e => ts <= e_ts e /\ e_te e <= te) cs
  | _, _ => False
  end.

Definition ptr_ok (h : nat) (e : elem) : Prop :=
  match e_ptr e with None => True | Some a => e_ts e <= a_txg a < e_te e /\ clean h (e_node e) end.
Definition egood (h : nat) (e : elem) (nx : option Z) : Prop :=
  lt_opt (e_key e) nx /\ e_ts e < e_te e /\ len_ok (e_node e) /\ ptr_ok h e /\
  good h (e_key e) nx (e_ts e) (e_te e) (e_node e).
Definition tx_in (ts te : Z) (e : elem) : Prop := ts <= e_ts e /\ e_te e <= te.

Lemma good_S h lo hi ts te cs :
  good (S h) lo hi ts te (Int cs) <-> chain (egood h) lo hi cs /\ Forall (tx_in ts te) cs.
Proof. reflexivity. Qed.

Lemma good_shape h lo hi ts te n : good h lo hi ts te n ->
  match n with Leaf _ => h = O | Int _ => exists h', h = S h' end.
Proof. destruct h, n; cbn; try tauto; eauto. Qed.

(** ** Chains *)

Fixpoint endlo (lo : Z) (l : list elem) : Z :=
  match l with [] => lo | e :: r => endlo (e_key e + 1) r end.

Lemma nextkey_app hi l r : nextkey hi (l ++ r) = nextkey (nextkey hi r) l.
Proof. destruct l; reflexivity. Qed.

Lemma chain_app (P : elem -> option Z -> Prop) lo hi l r :
  chain P lo hi (l ++ r) <-> chain P lo (nextkey hi r) l /\ chain P (endlo lo l) hi r.
Proof.
  revert lo; induction l as [|e l IH]; intros lo; cbn [app chain endlo].
  - tauto.
  - rewrite IH, nextkey_app. tauto.
Qed.

Lemma chain_lo (P : elem -> option Z -> Prop) lo lo' hi cs : lo' <= lo -> chain P lo hi cs -> chain P lo' hi cs.
Proof. destruct cs; cbn; intuition lia. Qed.

Lemma chain_relo (P : elem -> option Z -> Prop) lo hi cs k :
  chain P lo hi cs -> lt_opt k (nextkey hi cs) -> chain P (k + 1) hi cs.
Proof. destruct cs; cbn; intuition lia. Qed.

Lemma chain_impl (P Q : elem -> option Z -> Prop) lo hi cs :
  (forall e nx, In e cs -> P e nx -> Q e nx) -> chain P lo hi cs -> chain Q lo hi cs.
Proof.
  revert lo; induction cs as [|e r IH]; intros lo H; cbn; [tauto|].
  intros (?&?&?). split; [assumption|]. split; [apply H; [now left|assumption]|].
  apply IH; [|assumption]. intros; apply H; [now right|assumption].
Qed.

Lemma chain_hi (P : elem -> option Z -> Prop) lo hi hi' cs :
  (forall e nx nx', P e nx -> le_opt nx nx' -> P e nx') -> le_opt hi hi' ->
  chain P lo hi cs -> chain P lo hi' cs.
Proof.
  intros HP L. revert lo; induction cs as [|e r IH]; intros lo; cbn; [tauto|].
  intros (?&?&?). split; [assumption|]. split; [|now apply IH].
  eapply HP; [eassumption|]. destruct r; cbn; [exact L|lia].
Qed.

Lemma lt_le_opt k a b : lt_opt k a -> le_opt a b -> lt_opt k b.
Proof. destruct a, b; cbn; try tauto; lia. Qed.
Lemma le_opt_refl a : le_opt a a.
Proof. destruct a; cbn; [lia|exact I]. Qed.

Lemma chain_in (P : elem -> option Z -> Prop) lo hi cs e :
  chain P lo hi cs -> In e cs -> lo <= e_key e /\ exists nx, P e nx.
Proof.
  revert lo; induction cs as [|c r IH]; intros lo; cbn; [tauto|].
  intros (A&B&C) [->|I]; [eauto|].
  destruct (IH _ C I) as [? [nx ?]]. split; [lia|eauto].
Qed.

Lemma endlo_ge lo l : (forall P hi, chain P lo hi l -> lo <= endlo lo l).
Proof.
  revert lo; induction l as [|e r IH]; intros lo P hi; cbn; [lia|].
  intros (?&?&C). specialize (IH _ _ _ C). lia.
Qed.

(** ** Weakening *)

Lemma good_weaken h : forall lo hi ts te n lo' hi' ts' te',
  good h lo hi ts te n -> lo' <= lo -> le_opt hi hi' -> ts' <= ts -> te <= te' ->
  good h lo' hi' ts' te' n.
Proof.
  induction h as [|h IH]; intros lo hi ts te n lo' hi' ts' te' G L H T1 T2; destruct n as [l|cs]; cbn in G |- *; try tauto.
  - destruct G as [Z F]. split; [exact Z|]. eapply Forall_impl; [|exact F].
    intros p [A B]. split; [lia|]. eapply lt_le_opt; eauto.
  - destruct G as [C F]. split.
    + eapply chain_lo; [exact L|]. eapply chain_hi; [|exact H|exact C].
      intros e nx nx' (A&B&C'&D&E) N. split; [eapply lt_le_opt; eauto|]. split; [exact B|].
      split; [exact C'|]. split; [exact D|]. eapply IH; [exact E| | | |]; try lia. exact N.
    + eapply Forall_impl; [|exact F]. intros e [A B]. lia.
Qed.

Lemma egood_hi h e nx nx' : egood h e nx -> le_opt nx nx' -> egood h e nx'.
Proof.
  intros (A&B&C&D&E) L. split; [eapply lt_le_opt; eauto|].
  split; [exact B|]. split; [exact C|]. split; [exact D|].
  eapply good_weaken; eauto; lia.
Qed.

Lemma good_txg h lo hi ts te n ts' te' :
  good h lo hi ts te n ->
  (forall cs, n = Int cs -> Forall (fun e => ts' <= e_ts e) cs) -> te <= te' ->
  good h lo hi ts' te' n.
Proof.
  destruct h, n as [l|cs]; cbn; try tauto.
  intros [C F] M T. split; [exact C|].
  specialize (M cs eq_refl). rewrite Forall_forall in *. intros e I. specialize (F e I). specialize (M e I). lia.
Qed.

Lemma min_ts_some (cs : list elem) : cs <> [] -> exists m, min_ts cs = Some m.
Proof.
  destruct cs as [|e r]; [congruence|]. intros _. cbn. destruct (min_ts r); eauto.
Qed.
Lemma min_ts_spec (cs : list elem) m : min_ts cs = Some m -> Forall (fun e => m <= e_ts e) cs /\ exists e, In e cs /\ e_ts e = m.
Proof.
  revert m; induction cs as [|e r IH]; intros m; cbn; [discriminate|].
  destruct (min_ts r) as [x|] eqn:E.
  - intros H; injection H as <-. destruct (IH x eq_refl) as [F (c & I & Q)]. split.
    + constructor; [lia|]. eapply Forall_impl; [|exact F]. cbn. intros; lia.
    + destruct (Z.le_gt_cases (e_ts e) x); [exists e|exists c]; split; auto; lia.
  - intros H; injection H as <-. destruct r; [|cbn in E; destruct (min_ts r); discriminate].
    split; [constructor; [lia|constructor]|]. exists e; auto.
Qed.

(** ** Contents *)

Lemma zm_ok_app (a b : list (Z * V)) :
  zm_ok (a ++ b) <-> zm_ok a /\ zm_ok b /\ (forall p q, In p a -> In q b -> fst p < fst q).
Proof.
  induction a as [|[k v] a IH]; cbn [app].
  - split; [intros H; repeat split; auto; [apply zm_ok_nil|intros ? ? []]|tauto].
  - rewrite !zm_ok_cons, IH, Forall_app, !Forall_forall. split.
    + intros ((A&B&C)&D&E). repeat split; auto. intros p q [<-|I] J; cbn; [now apply E|auto].
    + intros ((A&D)&B&C). repeat split; auto.
      * intros; apply C; [now right|assumption].
      * intros q J. apply (C (k, v) q); [now left|assumption].
Qed.

Definition inb (lo : Z) (hi : option Z) (p : Z * V) : Prop := lo <= fst p /\ lt_opt (fst p) hi.

Lemma good_flat h : forall lo hi ts te n, good h lo hi ts te n ->
  zm_ok (flat h n) /\ Forall (inb lo hi) (flat h n).
Proof.
  induction h as [|h IH]; intros lo hi ts te n G; destruct n as [l|cs]; cbn in G; try tauto.
  destruct G as [C _]. cbn [flat].
  revert lo C. induction cs as [|e r IHr]; intros lo C; cbn [flat_map].
  - split; [apply zm_ok_nil|constructor].
  - cbn in C. destruct C as (A & (B1&B2&B3&B4&B5) & C).
    destruct (IH _ _ _ _ _ B5) as [Z1 F1]. destruct (IHr _ C) as [Z2 F2].
    rewrite Forall_forall in F1, F2. split.
    + apply zm_ok_app. split; [exact Z1|]. split; [exact Z2|]. intros p q P Q.
      specialize (F1 p P). specialize (F2 q Q). destruct F1 as [_ X], F2 as [Y _].
      destruct r as [|e2 r]; cbn in Q, X; [tauto|].
      enough (e_key e2 <= fst q) by lia. clear - Q C IH.
      (* q is in the flattening of e2 :: r, all of whose keys are at least [e_key e2] *)
      revert e2 Q C. generalize (e_key e + 1) as lo'. intros lo' e2 Q C.
      assert (H : forall r lo'', chain (egood h) lo'' hi r -> forall q, In q (flat_map (fun e => flat h (e_node e)) r) -> lo'' <= fst q).
      { clear - IH. induction r as [|c r IHc]; intros lo'' C q Q; [destruct Q|].
        cbn in C, Q. destruct C as (A & (B1&B2&B3&B4&B5) & C). apply in_app_or in Q. destruct Q as [Q|Q].
        - destruct (IH _ _ _ _ _ B5) as [_ F]. rewrite Forall_forall in F. specialize (F q Q). destruct F. lia.
        - specialize (IHc _ C q Q). lia. }
      eapply (H (e2 :: r) (e_key e2)); [|exact Q]. destruct C as (X & Y & Z). split; [lia|]. split; [exact Y|exact Z].
    + apply Forall_forall. intros p P. apply in_app_or in P. destruct P as [P|P].
      * specialize (F1 p P). destruct F1 as [X Y]. split; [lia|].
        destruct r as [|e2 r]; cbn in Y; [exact Y|].
        (* [fst p < e_key e2], and [e_key e2] is below [hi] *)
        clear - Y C. assert (H : forall r lo', chain (egood h) lo' hi r -> r <> [] -> lt_opt (match r with [] => 0 | c :: _ => e_key c end) hi).
        { clear. induction r as [|c r IHr]; intros lo' C N; [congruence|]. destruct C as (A & (B1&_) & C).
          destruct r as [|c2 r]; cbn in B1; [exact B1|]. specialize (IHr _ C). cbn in IHr.
          assert (c2 :: r <> []) by discriminate. specialize (IHr H). destruct hi; cbn in *; [lia|exact I]. }
        specialize (H (e2 :: r) _ C). cbn in H. assert (e2 :: r <> []) by discriminate. specialize (H H0).
        destruct hi; cbn in *; [lia|exact I].
      * specialize (F2 p P). destruct F2 as [X Y]. split; [lia|exact Y].
Qed.

(** keys of the children are below [hi] *)
Lemma chain_key_hi h lo hi cs e : chain (egood h) lo hi cs -> In e cs -> lt_opt (e_key e) hi.
Proof.
  revert lo; induction cs as [|c r IH]; intros lo; cbn; [tauto|].
  intros (A & (B & _) & C) [->|I]; [|eauto].
  destruct r as [|c2 r]; cbn in B; [exact B|].
  specialize (IH _ C). assert (J : In c2 (c2 :: r)) by now left.
  revert C. cbn. intros (D & (E & _) & C).
  assert (X : lt_opt (e_key c2) hi).
  { clear - D E C. revert c2 D E C. induction r as [|c3 r IHr]; intros c2 D E C; cbn in E; [exact E|].
    cbn in C. destruct C as (F & (G & _) & C). specialize (IHr c3 ltac:(lia) G C). destruct hi; cbn in *; [lia|exact I]. }
  destruct hi; cbn in *; [lia|exact I].
Qed.

Definition flats (h : nat) (cs : list elem) : list (Z * V) := flat_map (fun e => flat h (e_node e)) cs.
Lemma flats_app h a b : flats h (a ++ b) = flats h a ++ flats h b.
Proof. apply flat_map_app. Qed.
Lemma flats_cons h e r : flats h (e :: r) = flat h (e_node e) ++ flats h r.
Proof. reflexivity. Qed.
Lemma flat_Int h cs : flat (S h) (Int cs) = flats h cs.
Proof. reflexivity. Qed.

Lemma chain_flats h lo hi cs : chain (egood h) lo hi cs -> Forall (inb lo hi) (flats h cs).
Proof.
  intros C.
  assert (G : good (S h) lo hi (fold_right Z.min 0 (map e_ts cs)) (fold_right Z.max 0 (map e_te cs)) (Int cs)).
  { apply good_S. split; [exact C|]. clear. induction cs as [|e r IH]; constructor.
    - unfold tx_in; cbn; lia.
    - eapply Forall_impl; [|exact IH]. unfold tx_in; cbn. intros; lia. }
  apply good_flat in G. apply G.
Qed.

(** the three parts of the contents around one child *)
Lemma chain_parts h lo hi l e r : chain (egood h) lo hi (l ++ e :: r) ->
  Forall (fun p => fst p < e_key e) (flats h l) /\
  Forall (inb (e_key e) (nextkey hi r)) (flat h (e_node e)) /\
  Forall (fun p => forall b, nextkey hi r = Some b -> b <= fst p) (flats h r).
Proof.
  intros C. apply chain_app in C. destruct C as [C1 C2]. cbn in C1, C2. destruct C2 as (A & (B1&B2&B3&B4&B5) & C2).
  split; [|split].
  - apply chain_flats in C1. eapply Forall_impl; [|exact C1]. intros p [_ H]. exact H.
  - eapply good_flat; eauto.
  - destruct r as [|c r]; [constructor|].
    assert (C3 : chain (egood h) (e_key c) hi (c :: r)) by (destruct C2 as (X & Y & Z); split; [lia|]; split; [exact Y|exact Z]).
    apply chain_flats in C3. eapply Forall_impl; [|exact C3]. intros p [H _] b E. cbn in E. injection E as <-. exact H.
Qed.

Lemma zm_get_app k (a b : list (Z * V)) : Forall (fun p => fst p < k) a -> zm_get k (a ++ b) = zm_get k b.
Proof.
  induction a as [|[j v] a IH]; cbn; [reflexivity|]. intros F. inversion F; subst; cbn in *.
  destruct (Z.eqb_spec k j); [lia|]. now apply IH.
Qed.
Lemma zm_get_app_r k (a b : list (Z * V)) : Forall (fun p => k < fst p) b -> zm_get k (a ++ b) = zm_get k a.
Proof.
  intros F. induction a as [|[j v] a IH]; cbn; [now apply zm_get_lt|].
  destruct (k =? j); [reflexivity|exact IH].
Qed.
Lemma zm_set_app k v (a b : list (Z * V)) : Forall (fun p => fst p < k) a -> zm_set k v (a ++ b) = a ++ zm_set k v b.
Proof.
  induction a as [|[j w] a IH]; cbn; [reflexivity|]. intros F. inversion F; subst; cbn in *.
  destruct (Z.ltb_spec k j); [lia|]. destruct (Z.eqb_spec k j); [lia|]. f_equal. now apply IH.
Qed.
Lemma zm_set_lt k v (b : list (Z * V)) : Forall (fun p => k < fst p) b -> zm_set k v b = (k, v) :: b.
Proof.
  destruct b as [|[j w] b]; [reflexivity|]. intros F. inversion F; subst; cbn in *.
  destruct (Z.ltb_spec k j); [reflexivity|lia].
Qed.
Lemma zm_set_app_r k v (a b : list (Z * V)) : Forall (fun p => k < fst p) b -> zm_set k v (a ++ b) = zm_set k v a ++ b.
Proof.
  intros F. induction a as [|[j w] a IH]; cbn [app]; [rewrite zm_set_lt by assumption; reflexivity|].
  cbn [zm_set]. destruct (k <? j); [reflexivity|]. destruct (k =? j); [reflexivity|]. cbn. now f_equal.
Qed.
Lemma zm_del_lt k (b : list (Z * V)) : Forall (fun p => k < fst p) b -> zm_del k b = b.
Proof.
  induction b as [|[j w] b IH]; [reflexivity|]. intros F. inversion F; subst; cbn in *.
  destruct (Z.eqb_spec k j); [lia|]. f_equal. now apply IH.
Qed.
Lemma zm_del_app k (a b : list (Z * V)) : Forall (fun p => fst p < k) a -> zm_del k (a ++ b) = a ++ zm_del k b.
Proof.
  induction a as [|[j w] a IH]; cbn; [reflexivity|]. intros F. inversion F; subst; cbn in *.
  destruct (Z.eqb_spec k j); [lia|]. f_equal. now apply IH.
Qed.
Lemma zm_del_app_r k (a b : list (Z * V)) : Forall (fun p => k < fst p) b -> zm_del k (a ++ b) = zm_del k a ++ b.
Proof.
  intros F. induction a as [|[j w] a IH]; cbn [app]; [now rewrite zm_del_lt by assumption|].
  cbn. destruct (k =? j); [reflexivity|]. cbn. now f_equal.
Qed.

(** ** Position *)

Lemma filter_none {A} (f : A -> bool) l : Forall (fun x => f x = false) l -> filter f l = [].
Proof. induction 1; cbn; [reflexivity|]. now rewrite H. Qed.
Lemma filter_all {A} (f : A -> bool) l : Forall (fun x => f x = true) l -> filter f l = l.
Proof. induction 1; cbn; [reflexivity|]. rewrite H. now f_equal. Qed.

Lemma chain_keys_ge P lo hi cs : chain P lo hi cs -> Forall (fun e => lo <= e_key e) cs.
Proof.
  revert lo; induction cs as [|e r IH]; intros lo; cbn; constructor; [lia|].
  eapply Forall_impl; [|apply IH; apply H]. cbn. intros; lia.
Qed.
Lemma chain_keys_lt P lo hi l e r : chain P lo hi (l ++ e :: r) -> Forall (fun c => e_key c < e_key e) l.
Proof.
  revert lo; induction l as [|c l IH]; intros lo C; constructor.
  - cbn in C. destruct C as (_&_&C). apply chain_keys_ge in C. apply Forall_app in C.
    destruct C as [_ C]. inversion C; subst. lia.
  - cbn in C. eapply IH. apply C.
Qed.

Lemma position_at P lo hi l e r k :
  chain P lo hi (l ++ e :: r) -> (l = [] \/ e_key e <= k) -> lt_opt k (nextkey None r) ->
  position (l ++ e :: r) k = length l.
Proof.
  intros C H N. unfold position. rewrite filter_app. cbn [filter].
  assert (Hr : filter (fun e0 => e_key e0 <=? k) r = []).
  { apply filter_none. destruct r as [|c r]; [constructor|]. cbn in N.
    apply chain_app in C. destruct C as [_ C]. cbn in C. destruct C as (_&_&_&_&C). apply chain_keys_ge in C.
    constructor; [destruct (Z.leb_spec (e_key c) k); [lia|reflexivity]|].
    eapply Forall_impl; [|exact C]. cbn. intros x Hx. destruct (Z.leb_spec (e_key x) k); [lia|reflexivity]. }
  rewrite Hr. destruct H as [->|H].
  - cbn. destruct (e_key e <=? k); reflexivity.
  - rewrite filter_all.
    + destruct (Z.leb_spec (e_key e) k); [|lia]. rewrite app_length. cbn. lia.
    + apply chain_keys_lt in C. eapply Forall_impl; [|exact C]. cbn. intros x Hx.
      destruct (Z.leb_spec (e_key x) k); [reflexivity|lia].
Qed.

Lemma position_split P lo hi cs k : chain P lo hi cs -> cs <> [] ->
  exists l e r, cs = l ++ e :: r /\ position cs k = length l /\ (l = [] \/ e_key e <= k) /\ lt_opt k (nextkey None r).
Proof.
  intros C N.
  assert (H : exists l e r, cs = l ++ e :: r /\ (l = [] \/ e_key e <= k) /\ lt_opt k (nextkey None r)).
  { clear C. induction cs as [|c cs IH]; [congruence|]. destruct cs as [|c2 cs].
    - exists [], c, []. cbn. auto.
    - destruct (IH ltac:(discriminate)) as (l & e & r & E & A & B).
      destruct (Z.le_gt_cases (e_key c2) k) as [L|G].
      + exists (c :: l), e, r. split; [cbn; now rewrite E|]. split; [|exact B]. right.
        destruct A as [->|A]; [|exact A]. cbn in E. injection E as -> _. exact L.
      + exists [], c, (c2 :: cs). cbn. split; [reflexivity|]. split; [now left|exact G]. }
  destruct H as (l & e & r & -> & A & B). exists l, e, r. split; [reflexivity|]. split; [|auto].
  eapply position_at; eauto.
Qed.

Lemma nth_error_mid {A} (l : list A) e r : nth_error (l ++ e :: r) (length l) = Some e.
Proof. rewrite nth_error_app2, Nat.sub_diag by lia. reflexivity. Qed.
Lemma firstn_mid {A} (l : list A) r : firstn (length l) (l ++ r) = l.
Proof. rewrite firstn_app, Nat.sub_diag, firstn_all. cbn. apply app_nil_r. Qed.
Lemma skipn_mid {A} (l : list A) e r : skipn (S (length l)) (l ++ e :: r) = r.
Proof. rewrite skipn_app, skipn_all2 by lia. replace (S (length l) - length l)%nat with 1%nat by lia. reflexivity. Qed.
Lemma put_child_mid (l : list elem) e r e' : put_child (l ++ e :: r) (length l) e' = l ++ e' :: r.
Proof. unfold put_child. rewrite firstn_mid, skipn_mid. reflexivity. Qed.

Lemma lt_opt_next k hi r : lt_opt k hi -> lt_opt k (nextkey None r) -> lt_opt k (nextkey hi r).
Proof. destruct r; cbn; tauto. Qed.

(** ** Replacing one child *)

Lemma chain_mid h lo hi l e r : chain (egood h) lo hi (l ++ e :: r) <->
  chain (egood h) lo (Some (e_key e)) l /\ endlo lo l <= e_key e /\ egood h e (nextkey hi r) /\
  chain (egood h) (e_key e + 1) hi r.
Proof. rewrite chain_app. cbn. tauto. Qed.

Lemma chain_replace h lo hi l e r e' : chain (egood h) lo hi (l ++ e :: r) ->
  e_key e' = e_key e -> egood h e' (nextkey hi r) -> chain (egood h) lo hi (l ++ e' :: r).
Proof. rewrite !chain_mid. intros (A&B&C&D) K E. rewrite K. auto. Qed.

Lemma chain_replace2 h lo hi l e r e1 e2 : chain (egood h) lo hi (l ++ e :: r) ->
  e_key e1 = e_key e -> egood h e1 (Some (e_key e2)) -> egood h e2 (nextkey hi r) ->
  chain (egood h) lo hi (l ++ e1 :: e2 :: r).
Proof.
  rewrite !chain_mid. intros (A&B&C&D) K E F. rewrite K. split; [exact A|]. split; [exact B|].
  split; [exact E|]. cbn. destruct E as (E&_). cbn in E. rewrite K in E. split; [lia|]. split; [exact F|].
  eapply chain_relo; [exact D|]. apply F.
Qed.

Lemma Forall_mid {A} (P : A -> Prop) l e r : Forall P (l ++ e :: r) <-> Forall P l /\ P e /\ Forall P r.
Proof. rewrite Forall_app, Forall_cons_iff. tauto. Qed.

(** ** xlock *)

Lemma len_ok_pos n : (1 <= mi)%nat -> (1 <= ml)%nat -> len_ok n -> (1 <= n_len n)%nat.
Proof. destruct n; cbn; lia. Qed.

Lemma xlock_spec h txg e nx ts te :
  (1 <= mi)%nat -> (1 <= ml)%nat ->
  egood h e nx -> tx_in ts te e -> te = txg + 1 ->
  exists e', xlock txg e = Some (e', opt_list (e_ptr e)) /\ egood h e' nx /\ tx_in ts te e' /\
    e_key e' = e_key e /\ e_node e' = e_node e /\ e_ptr e' = None /\ e_te e' = txg + 1 /\ e_ts e <= e_ts e'.
Proof.
  intros M1 M2 (A&B&C&D&E) [T1 T2] T. destruct e as [k s t p m n]. cbn in *.
  unfold ptr_ok in D; cbn in D. destruct p as [a|].
  - assert (H : exists s', start_txg n txg = Some s' /\ s <= s' < txg + 1 /\ (forall cs, n = Int cs -> Forall (fun e => s' <= e_ts e) cs)).
    { destruct n as [l|cs]; cbn [start_txg].
      - exists txg. split; [reflexivity|]. split; [lia|]. intros cs X; discriminate.
      - cbn in C. destruct (min_ts_some cs) as [m' Hm]. { destruct cs; [cbn in C; lia|discriminate]. }
        exists m'. split; [exact Hm|]. apply min_ts_spec in Hm. destruct Hm as [F (c & I & Q)].
        destruct h; [destruct E|]. apply good_S in E. destruct E as [Ch Fo].
        rewrite Forall_forall in Fo. destruct (Fo c I) as [X Y].
        destruct (chain_in _ _ _ _ _ Ch I) as [_ [nx' (_ & Z & _)]].
        split; [lia|]. intros cs' X'; injection X' as <-. exact F. }
    destruct H as (s' & Hs & Hb & Hm). rewrite Hs.
    eexists. split; [reflexivity|]. cbn. unfold egood, tx_in, ptr_ok; cbn.
    assert (G : good h k nx s' (txg + 1) n) by (eapply good_txg; [exact E|exact Hm|lia]).
    repeat split; auto; lia.
  - eexists. split; [reflexivity|]. cbn. unfold egood, tx_in, ptr_ok; cbn.
    assert (G : good h k nx s (txg + 1) n) by (eapply good_weaken; [exact E|lia|apply le_opt_refl|lia|lia]).
    repeat split; auto; lia.
Qed.

End Lens.

(** ** Addresses *)

Lemma addrs_Int h (cs : list elem) : addrs_below (S h) (Int cs) = flat_map (addrs_elem h) cs.
Proof. reflexivity. Qed.
Lemma addrs_mid h (l : list elem) e r :
  flat_map (addrs_elem h) (l ++ e :: r) = flat_map (addrs_elem h) l ++ addrs_elem h e ++ flat_map (addrs_elem h) r.
Proof. rewrite flat_map_app. reflexivity. Qed.

End Inv.
