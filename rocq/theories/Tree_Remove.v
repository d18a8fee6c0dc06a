(** * The B-tree: removal *)
From Verif Require Import Common ZMap Tree_Model Tree_Inv Tree_Proofs.
From Coq Require Import Permutation.

Section Remove.
Context {V : Type}.
Notation elem := (@elem V).
Notation node := (@node V).
Notation tree := (@tree V).
Context (lim : limits) (mi ml : nat).
Context (HL : lims_ok lim mi ml).
Notation good := (@good V lim mi ml).
Notation egood := (@egood V lim mi ml).
Notation len_ok := (@len_ok V lim mi ml).

(** ** Merging and cutting nodes *)

Definition same_kind (a b : node) : Prop :=
  match a, b with Leaf _, Leaf _ | Int _, Int _ => True | _, _ => False end.
Lemma good_same_kind h lo hi ts te a lo' hi' ts' te' b : good h lo hi ts te a -> good h lo' hi' ts' te' b -> same_kind a b.
Proof. destruct h, a, b; cbn; tauto. Qed.
Lemma same_kind_len a b : same_kind a b -> n_max lim a = n_max lim b /\ n_min lim a = n_min lim b.
Proof. destruct a, b; cbn; tauto. Qed.

Definition cutn (n : node) (c : nat) : node * node :=
  match n with
  | Leaf l => (Leaf (firstn c l), Leaf (skipn c l))
  | Int cs => (Int (firstn c cs), Int (skipn c cs))
  end.

Lemma zm_ok_low (k : Z) v (l : list (Z * V)) : zm_ok ((k, v) :: l) -> Forall (fun p => k <= fst p) ((k, v) :: l).
Proof.
  intros Z. apply zm_ok_cons in Z. destruct Z as [_ Z]. constructor; [cbn; lia|].
  eapply Forall_impl; [|exact Z]. cbn; intros; lia.
Qed.

Lemma cutn_spec h lo hi ts te n c : good h lo hi ts te n -> (0 < c < n_len n)%nat ->
  exists a b k, cutn n c = (a, b) /\ n_key b = Some k /\ lo < k /\ lt_opt k hi /\
    good h lo (Some k) ts te a /\ good h k hi ts te b /\ same_kind n a /\ same_kind n b /\
    flat h a ++ flat h b = flat h n /\ addrs_below h a ++ addrs_below h b = addrs_below h n /\
    n_len a = c /\ n_len b = (n_len n - c)%nat.
Proof.
  intros G L. destruct n as [l|cs]; cbn [n_len cutn] in *.
  - destruct h; [|destruct G]. destruct G as [Zk F].
    destruct (skipn_cons_ex c l) as ([k v] & r & E); [lia|]. 
    assert (El : l = firstn c l ++ (k, v) :: r) by (rewrite <- E; symmetry; apply firstn_skipn).
    assert (Len1 : length (firstn c l) = c) by (apply firstn_length_le; lia).
    assert (Len2 : length ((k, v) :: r) = (length l - c)%nat) by (rewrite <- E; apply skipn_length).
    rewrite E. rewrite El in Zk, F. apply zm_ok_app in Zk. destruct Zk as (Z1 & Z2 & Z3).
    apply Forall_app in F. destruct F as [F1 F2].
    exists (Leaf (firstn c l)), (Leaf ((k, v) :: r)), k.
    split; [reflexivity|]. split; [reflexivity|].
    split. { destruct (firstn c l) as [|p q] eqn:Ef; [cbn in Len1; lia|]. inversion F1; subst.
      specialize (Z3 p (k, v) (or_introl eq_refl) (or_introl eq_refl)). cbn in Z3. lia. }
    split; [inversion F2; subst; cbn in *; tauto|].
    split. { cbn. split; [exact Z1|]. apply Forall_forall. intros p I. split.
      - rewrite Forall_forall in F1. now apply F1.
      - apply (Z3 p (k, v)); [exact I|now left]. }
    split. { cbn. split; [exact Z2|]. apply zm_ok_low in Z2. rewrite Forall_forall in *. intros p I.
      specialize (Z2 p I). specialize (F2 p I). cbn in *. tauto. }
    repeat (split; [first [exact I|reflexivity|symmetry; exact El]|]). split; [exact Len1|exact Len2].
  - destruct h; [destruct G|]. apply good_S in G. destruct G as [C F].
    destruct (skipn_cons_ex c cs) as (e & r & E); [lia|].
    assert (El : cs = firstn c cs ++ e :: r) by (rewrite <- E; symmetry; apply firstn_skipn).
    assert (Len1 : length (firstn c cs) = c) by (apply firstn_length_le; lia).
    assert (Len2 : length (e :: r) = (length cs - c)%nat) by (rewrite <- E; apply skipn_length).
    rewrite E. set (L1 := firstn c cs) in *. clearbody L1. subst cs. clear E.
    assert (Key : Forall (fun c => e_key c < e_key e) L1) by (eapply chain_keys_lt; exact C).
    assert (Hk : lt_opt (e_key e) hi) by (eapply chain_key_hi; [exact C|apply in_or_app; right; now left]).
    apply chain_app in C. destruct C as [C1 C2]. apply Forall_app in F. destruct F as [F1 F2].
    exists (Int L1), (Int (e :: r)), (e_key e).
    split; [reflexivity|]. split; [reflexivity|].
    split. { destruct L1 as [|p q]; [cbn in Len1; lia|]. inversion Key; subst. destruct C1 as [X _]. lia. }
    split; [exact Hk|]. split; [apply good_S; split; assumption|].
    split. { apply good_S; split; [|exact F2]. destruct C2 as (X & Y & Z). split; [lia|]. split; assumption. }
    split; [exact I|]. split; [exact I|].
    split; [rewrite !flat_Int, flats_app; reflexivity|].
    split; [rewrite !addrs_Int, flat_map_app; reflexivity|]. cbn [n_len]. auto.
Qed.

Lemma start_spec h lo hi ts txg n : good h lo hi ts (txg + 1) n -> (1 <= n_len n)%nat -> ts <= txg ->
  exists st, start_txg n txg = Some st /\ ts <= st <= txg /\ good h lo hi st (txg + 1) n.
Proof.
  intros G L T. destruct n as [l|cs]; cbn [start_txg].
  - exists txg. split; [reflexivity|]. split; [lia|]. destruct h; [exact G|destruct G].
  - destruct h; [destruct G|]. apply good_S in G. destruct G as [C F].
    destruct (min_ts_some cs) as [m Hm]. { destruct cs; [cbn in L; lia|discriminate]. }
    exists m. split; [exact Hm|]. apply min_ts_spec in Hm. destruct Hm as [Fm (c & Ic & Qc)].
    rewrite Forall_forall in F, Fm. destruct (F c Ic) as [X Y].
    destruct (chain_in _ _ _ _ _ C Ic) as [_ [nx (_&Z&_)]]. split; [lia|].
    apply good_S. split; [exact C|]. apply Forall_forall. intros y Iy. specialize (F y Iy). specialize (Fm y Iy).
    unfold tx_in in *. lia.
Qed.

Lemma merge_spec h lo k hi ts te a b :
  good h lo (Some k) ts te a -> good h k hi ts te b -> lo < k -> lt_opt k hi ->
  exists n, n_merge a b = Some n /\ good h lo hi ts te n /\ flat h n = flat h a ++ flat h b /\
    addrs_below h n = addrs_below h a ++ addrs_below h b /\ n_len n = (n_len a + n_len b)%nat /\ same_kind a n /\
    (forall c, (c <= n_len a)%nat -> cutn n c = match a, b with
       | Leaf x, Leaf y => (Leaf (firstn c x), Leaf (skipn c x ++ y))
       | Int x, Int y => (Int (firstn c x), Int (skipn c x ++ y))
       | _, _ => (a, b) end) /\
    (forall c, (n_len a <= c)%nat -> cutn n c = match a, b with
       | Leaf x, Leaf y => (Leaf (x ++ firstn (c - length x) y), Leaf (skipn (c - length x) y))
       | Int x, Int y => (Int (x ++ firstn (c - length x) y), Int (skipn (c - length x) y))
       | _, _ => (a, b) end).
Proof.
  intros G1 G2 L H. destruct h, a as [a|a], b as [b|b]; try (cbn in G1, G2; tauto).
  - exists (Leaf (a ++ b)). split; [reflexivity|]. cbn in G1, G2. destruct G1 as [Z1 F1], G2 as [Z2 F2].
    split. { cbn. split.
      - apply zm_ok_app. split; [exact Z1|]. split; [exact Z2|]. intros p q I J. rewrite Forall_forall in F1, F2.
        specialize (F1 p I). specialize (F2 q J). lia.
      - apply Forall_app. split; [eapply Forall_impl; [|exact F1]|eapply Forall_impl; [|exact F2]]; cbn.
        + intros p [A B]. split; [exact A|]. destruct hi; cbn in *; [lia|exact I].
        + intros p [A B]. split; [lia|exact B]. }
    split; [reflexivity|]. split; [reflexivity|]. cbn. rewrite app_length. split; [reflexivity|]. split; [exact I|].
    split; intros c Hc; rewrite firstn_app, skipn_app.
    + replace (c - length a)%nat with O by lia. cbn. now rewrite app_nil_r.
    + rewrite firstn_all2, skipn_all2 by lia. reflexivity.
  - exists (Int (a ++ b)). split; [reflexivity|]. apply good_S in G1, G2. destruct G1 as [C1 F1], G2 as [C2 F2].
    split. { apply good_S. split; [|apply Forall_app; split; assumption].
      apply chain_app. split.
      - eapply chain_hi; [apply egood_hi| |exact C1]. destruct b as [|e b]; cbn [nextkey].
        + destruct hi; cbn in *; [lia|exact I].
        + destruct C2 as [X _]. exact X.
      - destruct b as [|e b]; [exact I|]. destruct C2 as (X & Y & Z). split; [|split; assumption].
        enough (endlo lo a <= k) by lia. clear - C1 L.
        assert (L' : lo <= k) by lia. clear L. revert lo L' C1. induction a as [|c a IH]; intros lo L C; cbn [endlo]; [lia|]. destruct C as (X & Y & Z).
        apply IH; [|exact Z]. assert (lt_opt (e_key c) (Some k)); [|cbn in *; lia].
        eapply chain_key_hi with (cs := c :: a); [split; [exact X|split; [exact Y|exact Z]]|now left]. }
    split; [rewrite !flat_Int, flats_app; reflexivity|]. split; [rewrite !addrs_Int, flat_map_app; reflexivity|].
    cbn. rewrite app_length. split; [reflexivity|]. split; [exact I|].
    split; intros c Hc; rewrite firstn_app, skipn_app.
    + replace (c - length a)%nat with O by lia. cbn. now rewrite app_nil_r.
    + rewrite firstn_all2, skipn_all2 by lia. reflexivity.
Qed.


(** ** fix_int *)

Definition locked (txg : Z) (e : elem) : Prop := e_ptr e = None /\ e_te e = txg + 1.

Definition fixed (h : nat) (lo : Z) (hi : option Z) (ts txg : Z) (A : list elem) (x y : elem) (B : list elem)
  (cs' : list elem) : Prop :=
  chain (egood h) lo hi cs' /\ Forall (tx_in ts (txg + 1)) cs' /\
  flats h cs' = flats h (A ++ x :: y :: B) /\
  ((exists m, cs' = A ++ m :: B /\ locked txg m /\ e_key m = e_key x /\
      n_len (e_node m) = (n_len (e_node x) + n_len (e_node y))%nat /\ same_kind (e_node x) (e_node m)) \/
   (exists x' y', cs' = A ++ x' :: y' :: B /\ locked txg x' /\ locked txg y' /\ e_key x' = e_key x /\
      (n_len (e_node x') + n_len (e_node y') = n_len (e_node x) + n_len (e_node y))%nat /\
      same_kind (e_node x) (e_node x') /\ same_kind (e_node x) (e_node y') /\
      (n_min lim (e_node x) <= n_len (e_node x'))%nat /\ (n_min lim (e_node x) <= n_len (e_node y'))%nat /\
      ((n_len (e_node x) <= n_min lim (e_node x) \/ n_len (e_node y) <= n_min lim (e_node x))%nat ->
         (n_min lim (e_node x) < n_len (e_node x'))%nat /\ (n_min lim (e_node x) < n_len (e_node y'))%nat))).

Lemma addrs_e h (e : elem) : addrs_elem h e = opt_list (e_ptr e) ++ addrs_below h (e_node e).
Proof. reflexivity. Qed.
Lemma perm_pair {X} (px py a bx by' b : list X) :
  Permutation (px ++ py ++ a ++ bx ++ by' ++ b) (a ++ px ++ bx ++ py ++ by' ++ b).
Proof.
  rewrite (Permutation_app_swap_app py a), (Permutation_app_swap_app px a).
  apply Permutation_app_head, Permutation_app_head. apply Permutation_app_swap_app.
Qed.

(** the pair of elements after merging or after moving the boundary, as new elements *)
Lemma pair_merge h lo hi ts txg A x y B n :
  chain (egood h) lo hi (A ++ x :: y :: B) -> Forall (tx_in ts (txg + 1)) (A ++ x :: y :: B) -> ts <= txg ->
  e_te x <= txg + 1 -> e_te y <= txg + 1 ->
  (n_len (e_node x) + n_len (e_node y) <= n_max lim (e_node x))%nat ->
  n_merge (e_node x) (e_node y) = Some n ->
  exists st, start_txg n txg = Some st /\
   forall mk, let m := Elem (e_key x) st (txg + 1) None mk n in
    fixed h lo hi ts txg A x y B (A ++ m :: B) /\
    Permutation (opt_list (e_ptr x) ++ opt_list (e_ptr y) ++ flat_map (addrs_elem h) (A ++ m :: B))
                (flat_map (addrs_elem h) (A ++ x :: y :: B)).
Proof.
  intros C F T Tx Ty L M. assert (C0 := C). assert (F0 := F).
  apply chain_mid in C. destruct C as (C1 & C2 & (X1&X2&X3&X4&X5) & C3). cbn [nextkey] in X1, X5.
  destruct C3 as (_ & (Y1&Y2&Y3&Y4&Y5) & C4).
  apply Forall_mid in F. destruct F as (F1 & F2 & F3). inversion F3 as [|? ? F4 F5]; subst.
  assert (G1 : good h (e_key x) (Some (e_key y)) ts (txg + 1) (e_node x)) by (eapply good_weaken; [exact X5|lia|apply le_opt_refl|apply F2|apply F2]).
  assert (G2 : good h (e_key y) (nextkey hi B) ts (txg + 1) (e_node y)) by (eapply good_weaken; [exact Y5|lia|apply le_opt_refl|apply F4|apply F4]).
  destruct (merge_spec _ _ _ _ _ _ _ _ G1 G2 X1 Y1) as (n' & M' & Gn & Fl & Ad & Ln & SK & _).
  rewrite M in M'. injection M' as <-.
  assert (Hmin : (1 <= n_len (e_node x))%nat) by (apply (len_ok_pos lim mi ml); [apply HL|apply HL|exact X3]).
  destruct (start_spec _ _ _ _ _ _ Gn ltac:(lia) T) as (st & Hs & Hst & Gs).
  exists st. split; [exact Hs|]. intros mk m.
  assert (Lok : len_ok n).
  { destruct HL as (?&?&_). destruct (e_node x), n; cbn in SK, Ln, L, X3, Y3 |- *; try tauto; lia. }
  assert (Em : egood h m (nextkey hi B)).
  { split; [cbn; destruct (nextkey hi B); cbn in *; [lia|exact I]|]. split; [cbn; lia|]. split; [exact Lok|].
    split; [exact I|]. exact Gs. }
  split.
  - split; [|split; [|split]].
    + apply chain_mid. split; [exact C1|]. split; [exact C2|]. split; [exact Em|].
      cbn [e_key m]. eapply chain_relo; [exact C4|]. destruct B; cbn in *; [exact (proj1 Em)|lia].
    + apply Forall_mid. split; [exact F1|]. split; [unfold tx_in; cbn; lia|exact F5].
    + rewrite !flats_app, !flats_cons. cbn [m e_node]. rewrite Fl, <- !app_assoc. reflexivity.
    + left. exists m. repeat (split; [first [reflexivity|split; reflexivity|exact Ln]|]). exact SK.
  - rewrite !flat_map_app. cbn [flat_map]. rewrite !addrs_e. cbn [m e_ptr e_node opt_list app]. rewrite Ad, <- !app_assoc.
    apply perm_pair.
Qed.

Lemma pair_cut h lo hi ts txg A x y B n c a b :
  chain (egood h) lo hi (A ++ x :: y :: B) -> Forall (tx_in ts (txg + 1)) (A ++ x :: y :: B) -> ts <= txg ->
  e_te x <= txg + 1 -> e_te y <= txg + 1 ->
  n_merge (e_node x) (e_node y) = Some n -> cutn n c = (a, b) ->
  (n_min lim (e_node x) <= c)%nat -> (c + n_min lim (e_node x) <= n_len (e_node x) + n_len (e_node y))%nat ->
  (c <= n_max lim (e_node x))%nat -> (n_len (e_node x) + n_len (e_node y) <= c + n_max lim (e_node x))%nat ->
  ((n_len (e_node x) <= n_min lim (e_node x) \/ n_len (e_node y) <= n_min lim (e_node x))%nat ->
    (n_min lim (e_node x) < c)%nat /\ (c + n_min lim (e_node x) < n_len (e_node x) + n_len (e_node y))%nat) ->
  exists k sa sb, n_key b = Some k /\ start_txg a txg = Some sa /\ start_txg b txg = Some sb /\
   forall mk mk', let x' := Elem (e_key x) sa (txg + 1) None mk a in let y' := Elem k sb (txg + 1) None mk' b in
    fixed h lo hi ts txg A x y B (A ++ x' :: y' :: B) /\
    Permutation (opt_list (e_ptr x) ++ opt_list (e_ptr y) ++ flat_map (addrs_elem h) (A ++ x' :: y' :: B))
                (flat_map (addrs_elem h) (A ++ x :: y :: B)).
Proof.
  intros C F T Tx Ty M Cut L1 L2 L3 L4 L5. assert (C0 := C). assert (F0 := F).
  apply chain_mid in C. destruct C as (C1 & C2 & (X1&X2&X3&X4&X5) & C3). cbn [nextkey] in X1, X5.
  destruct C3 as (_ & (Y1&Y2&Y3&Y4&Y5) & C4).
  apply Forall_mid in F. destruct F as (F1 & F2 & F3). inversion F3 as [|? ? F4 F5]; subst.
  assert (G1 : good h (e_key x) (Some (e_key y)) ts (txg + 1) (e_node x)) by (eapply good_weaken; [exact X5|lia|apply le_opt_refl|apply F2|apply F2]).
  assert (G2 : good h (e_key y) (nextkey hi B) ts (txg + 1) (e_node y)) by (eapply good_weaken; [exact Y5|lia|apply le_opt_refl|apply F4|apply F4]).
  destruct (merge_spec _ _ _ _ _ _ _ _ G1 G2 X1 Y1) as (n' & M' & Gn & Fl & Ad & Ln & SK & _).
  rewrite M in M'. injection M' as <-.
  assert (Hm : (1 <= n_min lim (e_node x))%nat) by (destruct HL as (?&?&_); destruct (e_node x); cbn; lia).
  destruct (cutn_spec _ _ _ _ _ _ c Gn ltac:(lia)) as (a' & b' & k & Cut' & Hk & K1 & K2 & Ga & Gb & Ka & Kb & Fl' & Ad' & La & Lb).
  rewrite Cut in Cut'. injection Cut' as <- <-.
  destruct (start_spec _ _ _ _ _ _ Ga ltac:(lia) T) as (sa & Hsa & Hsta & Gsa).
  destruct (start_spec _ _ _ _ _ _ Gb ltac:(lia) T) as (sb & Hsb & Hstb & Gsb).
  exists k, sa, sb. split; [exact Hk|]. split; [exact Hsa|]. split; [exact Hsb|]. intros mk mk' x' y'.
  assert (SKa : same_kind (e_node x) a) by (destruct (e_node x), n, a; cbn in *; tauto).
  assert (SKb : same_kind (e_node x) b) by (destruct (e_node x), n, b; cbn in *; tauto).
  assert (Loka : len_ok a).
  { destruct HL as (?&?&_). destruct (e_node x), a; cbn in SKa, La, L1, L3 |- *; try tauto; lia. }
  assert (Lokb : len_ok b).
  { destruct HL as (?&?&_). destruct (e_node x), b; cbn in SKb, Lb, Ln, L2, L4 |- *; try tauto; lia. }
  assert (Ex : egood h x' (Some k)).
  { split; [exact K1|]. split; [cbn; lia|]. split; [exact Loka|]. split; [exact I|]. exact Gsa. }
  assert (Ey : egood h y' (nextkey hi B)).
  { split; [exact K2|]. split; [cbn; lia|]. split; [exact Lokb|]. split; [exact I|]. exact Gsb. }
  split.
  - split; [|split; [|split]].
    + apply chain_mid. split; [exact C1|]. split; [exact C2|]. split; [exact Ex|].
      split; [cbn; lia|]. split; [exact Ey|]. cbn [y' e_key]. eapply chain_relo; [exact C4|exact K2].
    + apply Forall_mid. split; [exact F1|]. split; [unfold tx_in; cbn; lia|]. constructor; [unfold tx_in; cbn; lia|exact F5].
    + rewrite !flats_app, !flats_cons. cbn [x' y' e_node]. rewrite (app_assoc (flat h a)), Fl', Fl, <- !app_assoc. reflexivity.
    + right. exists x', y'. cbn [x' y' e_node e_key]. split; [reflexivity|]. split; [split; reflexivity|]. split; [split; reflexivity|].
      split; [reflexivity|]. split; [lia|]. split; [exact SKa|]. split; [exact SKb|]. split; [lia|]. split; [lia|].
      intros H. specialize (L5 H). lia.
  - rewrite !flat_map_app. cbn [flat_map]. rewrite !addrs_e. cbn [x' y' e_ptr e_node opt_list app].
    rewrite (app_assoc (addrs_below h a)), Ad', Ad, <- !app_assoc.
    apply perm_pair.
Qed.

Definition small (n : node) : Prop := (n_len n <= n_min lim n + 1)%nat.

Lemma fixed_eq h lo hi ts txg A x y x2 y2 B cs' :
  e_node x2 = e_node x -> e_node y2 = e_node y -> e_key x2 = e_key x ->
  fixed h lo hi ts txg A x2 y2 B cs' -> fixed h lo hi ts txg A x y B cs'.
Proof.
  unfold fixed. rewrite !flats_app, !flats_cons. intros -> -> ->. auto.
Qed.

Lemma Ln_merge (a b n : node) : n_merge a b = Some n -> n_len n = (n_len a + n_len b)%nat.
Proof. destruct a, b; cbn; intros H; try discriminate; injection H as <-; cbn; apply app_length. Qed.
Lemma Ln_cut (n : node) c a b : cutn n c = (a, b) -> (c <= n_len n)%nat -> n_len a = c.
Proof. destruct n; cbn; intros [= <- <-] L; cbn; apply firstn_length_le; exact L. Qed.
Lemma Ln_cut2 (n : node) c a b : cutn n c = (a, b) -> (c <= n_len n)%nat -> n_len b = (n_len n - c)%nat.
Proof. destruct n; cbn; intros [= <- <-] L; cbn; apply skipn_length. Qed.
Lemma nth_error_mid2 {X} (A : list X) x y B : nth_error (A ++ x :: y :: B) (S (length A)) = Some y.
Proof. rewrite nth_error_app2 by lia. replace (S (length A) - length A)%nat with 1%nat by lia. reflexivity. Qed.

Lemma fix_int_right h lo hi ts txg A x y B :
  chain (egood h) lo hi (A ++ x :: y :: B) -> Forall (tx_in ts (txg + 1)) (A ++ x :: y :: B) -> ts <= txg ->
  locked txg x -> small (e_node x) ->
  exists cs' popped,
    ((fix_int lim txg (A ++ x :: y :: B) (length A) = Some (cs', 0%nat, 0%nat, popped) /\ length cs' = length (A ++ x :: y :: B)) \/
     (fix_int lim txg (A ++ x :: y :: B) (length A) = Some (cs', 0%nat, 1%nat, popped) /\ S (length cs') = length (A ++ x :: y :: B))) /\
    fixed h lo hi ts txg A x y B cs' /\
    Permutation (popped ++ flat_map (addrs_elem h) cs') (flat_map (addrs_elem h) (A ++ x :: y :: B)) /\
    exists c', nth_error cs' (length A) = Some c' /\ (n_len (e_node x) < n_len (e_node c'))%nat.
Proof.
  intros C F T [Px Tx] Sm. unfold fix_int. rewrite nth_error_mid.
  assert (Hl : (S (length A) <? length (A ++ x :: y :: B))%nat = true) by (apply Nat.ltb_lt; rewrite app_length; cbn; lia).
  rewrite Hl.
  assert (Ny : nth_error (A ++ x :: y :: B) (S (length A)) = Some y).
  { rewrite nth_error_app2 by lia. replace (S (length A) - length A)%nat with 1%nat by lia. reflexivity. }
  rewrite Ny.
  assert (Cy : egood h y (nextkey hi B)) by (apply chain_mid in C; destruct C as (_&_&_&(_&H&_)); exact H).
  assert (Ty : tx_in ts (txg + 1) y) by (apply Forall_mid in F; destruct F as (_&_&F); inversion F; assumption).
  destruct (xlock_spec lim mi ml h txg y _ ts (txg + 1) (proj1 (proj1 HL)) (proj1 (proj1 (proj2 HL))) Cy Ty eq_refl)
      as (y2 & Hx & Ey2 & Tx2 & Q1 & Q2 & Q3 & Q4 & Q5). rewrite Hx.
  assert (C2 : chain (egood h) lo hi (A ++ x :: y2 :: B)).
  { change (A ++ x :: y :: B) with (A ++ [x] ++ y :: B) in C. change (A ++ x :: y2 :: B) with (A ++ [x] ++ y2 :: B).
    rewrite app_assoc in *. eapply chain_replace; eauto. }
  assert (F2 : Forall (tx_in ts (txg + 1)) (A ++ x :: y2 :: B)).
  { apply Forall_mid in F. destruct F as (Fa&Fb&Fc). apply Forall_mid. split; [exact Fa|]. split; [exact Fb|]. inversion Fc; constructor; assumption. }
  assert (Perm : Permutation (opt_list (e_ptr y) ++ flat_map (addrs_elem h) (A ++ x :: y2 :: B)) (flat_map (addrs_elem h) (A ++ x :: y :: B))).
  { rewrite !flat_map_app. cbn [flat_map]. rewrite !addrs_e. rewrite Q2, Q3. cbn [opt_list app].
    rewrite Permutation_app_swap_app. apply Permutation_app_head.
    rewrite Permutation_app_swap_app. apply Permutation_app_head. rewrite <- !app_assoc. reflexivity. }
  assert (Gd : exists n, n_merge (e_node x) (e_node y2) = Some n /\ same_kind (e_node x) (e_node y2) /\
     (forall c, (n_len (e_node x) <= c)%nat -> cutn n c = match e_node x, e_node y2 with
       | Leaf x, Leaf y => (Leaf (x ++ firstn (c - length x) y), Leaf (skipn (c - length x) y))
       | Int x, Int y => (Int (x ++ firstn (c - length x) y), Int (skipn (c - length x) y))
       | _, _ => (e_node x, e_node y2) end) /\ len_ok (e_node x) /\ len_ok (e_node y2)).
  { apply chain_mid in C2. destruct C2 as (_ & _ & (X1&X2&X3&X4&X5) & (_ & (Y1&Y2&Y3&Y4&Y5) & _)). cbn [nextkey] in X1, X5.
    apply Forall_mid in F2. destruct F2 as (_ & Fx & Fy). inversion Fy as [|? ? Fy' _]; subst.
    assert (G1 : good h (e_key x) (Some (e_key y2)) ts (txg + 1) (e_node x)) by (eapply good_weaken; [exact X5|lia|apply le_opt_refl|apply Fx|apply Fx]).
    assert (G2 : good h (e_key y2) (nextkey hi B) ts (txg + 1) (e_node y2)) by (eapply good_weaken; [exact Y5|lia|apply le_opt_refl|apply Fy'|apply Fy']).
    destruct (merge_spec _ _ _ _ _ _ _ _ G1 G2 X1 Y1) as (n' & M' & _ & _ & _ & _ & _ & _ & Hc).
    exists n'. split; [exact M'|]. split; [eapply good_same_kind; eauto|]. split; [exact Hc|]. split; assumption. }
  destruct Gd as (n & Mg & SK & Hc & Lx & Ly). destruct (same_kind_len _ _ SK) as [Smax Smin].
  assert (Sk2 : skipn (S (S (length A))) (A ++ x :: y :: B) = B).
  { rewrite skipn_app, skipn_all2 by lia. replace (S (S (length A)) - length A)%nat with 2%nat by lia. reflexivity. }
  rewrite firstn_mid, Sk2, Mg.
  destruct (can_merge lim (e_node x) (e_node y2)) eqn:CM.
  - apply Nat.leb_le in CM.
    destruct (pair_merge h lo hi ts txg A x y2 B n C2 F2 T ltac:(lia) ltac:(lia) CM Mg) as (st & Hs & H).
    rewrite Hs. destruct x as [xk xs xt xp xm xn]. cbn in Px, Tx. subst xp xt. specialize (H xm). cbn [e_key] in H.
    destruct H as [H1 H2]. eexists _, _. split; [right; split; [reflexivity|rewrite !app_length; cbn; lia]|]. cbn [set_node set_ts].
    split; [eapply fixed_eq; [| | |exact H1]; auto|].
    split; [rewrite <- Perm; apply Permutation_app_head; rewrite <- H2; rewrite Q3; reflexivity|].
    eexists. split; [apply nth_error_mid|]. cbn [e_node] in *. rewrite (Ln_merge _ _ _ Mg).
    destruct HL as (?&?&_). destruct (e_node y2); cbn in Ly |- *; lia.
  - apply Nat.leb_gt in CM.
    set (c := (n_len (e_node x) + Nat.max 1 (Nat.div2 (n_len (e_node y2) - n_len (e_node x))))%nat).
    assert (Hd := div2_half (n_len (e_node y2) - n_len (e_node x))).
    assert (Hlim : (2 * n_min lim (e_node x) + 1 <= n_max lim (e_node x))%nat) by (destruct HL as (?&?&?&?); destruct (e_node x); cbn; assumption).
    assert (Hm : (1 <= n_min lim (e_node x))%nat) by (destruct HL as (?&?&_); destruct (e_node x); cbn; lia).
    assert (Hmx : (n_len (e_node y2) <= n_max lim (e_node x))%nat) by (rewrite Smax; destruct (e_node y2); cbn in Ly |- *; lia).
    unfold small in Sm.
    assert (TL : take_low (e_node x) (e_node y2) = Some (cutn n c)).
    { unfold take_low. destruct (Nat.ltb_spec (n_len (e_node y2)) (n_len (e_node x))) as [Bad|Ge]; [lia|].
      rewrite (Hc c) by (unfold c; lia). unfold c. destruct (e_node x) as [lx|lx], (e_node y2) as [ly|ly]; try (cbn in SK; tauto); cbn [n_len] in *.
      - replace (length lx + _ - length lx)%nat with (Nat.max 1 (Nat.div2 (length ly - length lx))) by lia.
        destruct (skipn_cons_ex (Nat.max 1 (Nat.div2 (length ly - length lx))) ly) as (z & zs & E); [cbn [n_len n_max n_min] in *; lia|].
        rewrite E. reflexivity.
      - replace (length lx + _ - length lx)%nat with (Nat.max 1 (Nat.div2 (length ly - length lx))) by lia.
        destruct (Nat.ltb_spec (length ly) (Nat.max 1 (Nat.div2 (length ly - length lx)))); [cbn [n_len n_max n_min] in *; lia|reflexivity]. }
    rewrite TL. destruct (cutn n c) as [a b] eqn:Cut.
    destruct (pair_cut h lo hi ts txg A x y2 B n c a b C2 F2 T ltac:(lia) ltac:(lia) Mg Cut) as (k & sa & sb & Hk & Hsa & Hsb & H).
    1-4: unfold c; lia.
    { unfold c. intros H. rewrite ?Q2 in *. lia. }
    rewrite Hk, Hsa, Hsb. destruct x as [xk xs xt xp xm xn], y2 as [yk ys yt yp ym yn].
    cbn in Px, Tx, Q1, Q2, Q3, Q4. subst xp xt yp yt. specialize (H xm ym). cbn [e_key] in H. destruct H as [H1 H2].
    eexists _, _. split; [left; split; [reflexivity|rewrite !app_length; reflexivity]|]. cbn [set_node set_ts set_key].
    split; [eapply fixed_eq; [| | |exact H1]; auto|].
    split; [rewrite <- Perm; apply Permutation_app_head; rewrite <- H2; reflexivity|].
    eexists. split; [apply nth_error_mid|]. cbn [e_node] in *. pose proof (Ln_cut _ _ _ _ Cut ltac:(rewrite (Ln_merge _ _ _ Mg); unfold c; cbn [e_node]; lia)) as Lc.
    rewrite Lc. unfold c. cbn [e_node]. lia.
Qed.

Lemma fix_int_left h lo hi ts txg A x y :
  chain (egood h) lo hi (A ++ [x; y]) -> Forall (tx_in ts (txg + 1)) (A ++ [x; y]) -> ts <= txg ->
  locked txg y -> small (e_node y) ->
  exists cs' popped,
    (exists mb, (mb <= 1)%nat /\ fix_int lim txg (A ++ [x; y]) (S (length A)) = Some (cs', mb, 0%nat, popped) /\
        (length cs' + mb = length (A ++ [x; y]))%nat /\
        exists c', nth_error cs' (S (length A) - mb) = Some c' /\ (n_len (e_node y) < n_len (e_node c'))%nat) /\
    fixed h lo hi ts txg A x y [] cs' /\
    Permutation (popped ++ flat_map (addrs_elem h) cs') (flat_map (addrs_elem h) (A ++ [x; y])).
Proof.
  intros C F T [Py Ty] Sm. unfold fix_int.
  assert (Ny : nth_error (A ++ [x; y]) (S (length A)) = Some y).
  { rewrite nth_error_app2 by lia. replace (S (length A) - length A)%nat with 1%nat by lia. reflexivity. }
  rewrite Ny.
  assert (Hl : (S (S (length A)) <? length (A ++ [x; y]))%nat = false) by (apply Nat.ltb_ge; rewrite app_length; cbn; lia).
  rewrite Hl, nth_error_mid.
  assert (Cx : egood h x (Some (e_key y))) by (apply chain_mid in C; destruct C as (_&_&H&_); exact H).
  assert (Tx : tx_in ts (txg + 1) x) by (apply Forall_mid in F; destruct F as (_&F&_); exact F).
  destruct (xlock_spec lim mi ml h txg x _ ts (txg + 1) (proj1 (proj1 HL)) (proj1 (proj1 (proj2 HL))) Cx Tx eq_refl)
      as (x2 & Hx & Ex2 & Tx2 & Q1 & Q2 & Q3 & Q4 & Q5). rewrite Hx.
  assert (C2 : chain (egood h) lo hi (A ++ [x2; y])) by (eapply chain_replace; eauto).
  assert (F2 : Forall (tx_in ts (txg + 1)) (A ++ [x2; y])).
  { apply Forall_mid in F. destruct F as (Fa&Fb&Fc). apply Forall_mid. auto. }
  assert (Perm : Permutation (opt_list (e_ptr x) ++ flat_map (addrs_elem h) (A ++ [x2; y])) (flat_map (addrs_elem h) (A ++ [x; y]))).
  { rewrite !flat_map_app. cbn [flat_map]. rewrite !addrs_e. rewrite Q2, Q3. cbn [opt_list app].
    rewrite Permutation_app_swap_app. apply Permutation_app_head. rewrite <- !app_assoc. reflexivity. }
  assert (Gd : exists n, n_merge (e_node x2) (e_node y) = Some n /\ same_kind (e_node x2) (e_node y) /\
     (forall c, (c <= n_len (e_node x2))%nat -> cutn n c = match e_node x2, e_node y with
       | Leaf x, Leaf y => (Leaf (firstn c x), Leaf (skipn c x ++ y))
       | Int x, Int y => (Int (firstn c x), Int (skipn c x ++ y))
       | _, _ => (e_node x2, e_node y) end) /\ len_ok (e_node x2) /\ len_ok (e_node y)).
  { apply chain_mid in C2. destruct C2 as (_ & _ & (X1&X2&X3&X4&X5) & (_ & (Y1&Y2&Y3&Y4&Y5) & _)). cbn [nextkey] in X1, X5.
    apply Forall_mid in F2. destruct F2 as (_ & Fx & Fy). inversion Fy as [|? ? Fy' _]; subst.
    assert (G1 : good h (e_key x2) (Some (e_key y)) ts (txg + 1) (e_node x2)) by (eapply good_weaken; [exact X5|lia|apply le_opt_refl|apply Fx|apply Fx]).
    assert (G2 : good h (e_key y) (nextkey hi []) ts (txg + 1) (e_node y)) by (eapply good_weaken; [exact Y5|lia|apply le_opt_refl|apply Fy'|apply Fy']).
    destruct (merge_spec _ _ _ _ _ _ _ _ G1 G2 X1 Y1) as (n' & M' & _ & _ & _ & _ & _ & Hc & _).
    exists n'. split; [exact M'|]. split; [eapply good_same_kind; eauto|]. split; [exact Hc|]. split; assumption. }
  destruct Gd as (n & Mg & SK & Hc & Lx & Ly). destruct (same_kind_len _ _ SK) as [Smax Smin].
  assert (Sk2 : skipn (S (S (length A))) (A ++ [x; y]) = []).
  { apply skipn_all2. rewrite app_length. cbn. lia. }
  rewrite firstn_mid, Sk2, Mg.
  destruct (can_merge lim (e_node x2) (e_node y)) eqn:CM.
  - apply Nat.leb_le in CM.
    destruct (pair_merge h lo hi ts txg A x2 y [] n C2 F2 T ltac:(lia) ltac:(lia) CM Mg) as (st & Hs & H).
    rewrite Hs. destruct x2 as [xk xs xt xp xm xn]. cbn in Q1, Q2, Q3, Q4. subst xp xt. specialize (H xm). cbn [e_key] in H.
    destruct H as [H1 H2]. eexists _, _. split.
    { exists 1%nat. split; [lia|]. split; [reflexivity|]. split; [rewrite !app_length; cbn; lia|]. eexists.
      cbn [Nat.sub]. rewrite Nat.sub_0_r. split; [apply nth_error_mid|]. cbn [set_node set_ts e_node] in *. rewrite (Ln_merge _ _ _ Mg).
      destruct HL as (?&?&_). destruct xn; cbn in Lx |- *; lia. }
    cbn [set_node set_ts].
    split; [eapply fixed_eq; [| | |exact H1]; auto|].
    rewrite <- Perm. apply Permutation_app_head. rewrite <- H2. rewrite Py. reflexivity.
  - apply Nat.leb_gt in CM.
    set (c := (n_len (e_node x2) - Nat.max 1 (Nat.div2 (n_len (e_node x2) - n_len (e_node y))))%nat).
    assert (Hd := div2_half (n_len (e_node x2) - n_len (e_node y))).
    assert (Hlim : (2 * n_min lim (e_node x2) + 1 <= n_max lim (e_node x2))%nat) by (destruct HL as (?&?&?&?); destruct (e_node x2); cbn; assumption).
    assert (Hm : (1 <= n_min lim (e_node x2))%nat) by (destruct HL as (?&?&_); destruct (e_node x2); cbn; lia).
    assert (Hmx : (n_len (e_node x2) <= n_max lim (e_node x2))%nat) by (destruct (e_node x2); cbn in Lx |- *; lia).
    unfold small in Sm.
    assert (TH : take_high (e_node y) (e_node x2) = Some (snd (cutn n c), fst (cutn n c))).
    { unfold take_high. destruct (Nat.ltb_spec (n_len (e_node x2)) (n_len (e_node y))) as [Bad|Ge]; [lia|].
      rewrite (Hc c) by (unfold c; lia). unfold c. destruct (e_node x2) as [lx|lx], (e_node y) as [ly|ly]; try (cbn in SK; tauto); cbn [n_len] in *.
      - destruct (Nat.ltb_spec (length lx) (Nat.max 1 (Nat.div2 (length lx - length ly)))); [cbn [n_len n_max n_min] in *; lia|].
        destruct (skipn_cons_ex (length lx - Nat.max 1 (Nat.div2 (length lx - length ly))) lx) as (z & zs & E); [cbn [n_len n_max n_min] in *; lia|].
        rewrite E. reflexivity.
      - destruct (Nat.ltb_spec (length lx) (Nat.max 1 (Nat.div2 (length lx - length ly)))); [cbn [n_len n_max n_min] in *; lia|reflexivity]. }
    rewrite TH. destruct (cutn n c) as [a b] eqn:Cut. cbn [fst snd].
    destruct (pair_cut h lo hi ts txg A x2 y [] n c a b C2 F2 T ltac:(lia) ltac:(lia) Mg Cut) as (k & sa & sb & Hk & Hsa & Hsb & H).
    1-4: unfold c; lia.
    { unfold c. intros H. lia. }
    rewrite Hk, Hsa, Hsb. destruct y as [yk ys yt yp ym yn], x2 as [xk xs xt xp xm xn].
    cbn in Py, Ty, Q1, Q2, Q3, Q4. subst xp xt yp yt. specialize (H xm ym). cbn [e_key] in H. destruct H as [H1 H2].
    eexists _, _. split.
    { exists O. split; [lia|]. split; [reflexivity|]. split; [rewrite !app_length; cbn; lia|]. eexists.
      rewrite Nat.sub_0_r. split; [apply nth_error_mid2|]. cbn [set_node set_ts set_key e_node] in *.
      pose proof (Ln_merge _ _ _ Mg) as Lm.
      pose proof (Ln_cut2 _ _ _ _ Cut ltac:(rewrite Lm; unfold c; cbn [e_node]; lia)) as Lc.
      rewrite Lc, Lm. unfold c. cbn [e_node]. lia. }
    cbn [set_node set_ts set_key].
    split; [eapply fixed_eq; [| | |exact H1]; auto|].
    rewrite <- Perm. apply Permutation_app_head. rewrite <- H2. reflexivity.
Qed.

(** ** remove_no_fix *)

Section Key.
Context (txg k : Z).

Definition rem_post (h : nat) (lo : Z) (hi : option Z) (ts : Z) (n : node) (res : option (node * option V * list addr)) : Prop :=
  exists n' popped, res = Some (n', zm_get k (flat h n), popped) /\
    good h lo hi ts (txg + 1) n' /\ flat h n' = zm_del k (flat h n) /\
    Permutation (popped ++ addrs_below h n') (addrs_below h n) /\ same_kind n n' /\
    (n_len n - 1 <= n_len n' <= n_len n)%nat.

Lemma zm_del_length (l : list (Z * V)) : zm_ok l ->
  (length l - 1 <= length (zm_del k l) <= length l)%nat.
Proof.
  induction l as [|[j w] l IH]; [cbn; lia|]. intros Z. apply zm_ok_cons in Z. destruct Z as [Z F].
  cbn. destruct (Z.eqb_spec k j) as [E|E].
  - subst j. assert (D : zm_del k l = l) by (apply zm_del_lt; eapply Forall_impl; [|exact F]; cbn; intros; lia).
    try rewrite D. lia.
  - cbn. specialize (IH Z). destruct l as [|p l]; [cbn; lia|]. cbn in IH |- *. lia.
Qed.

Lemma zm_del_incl p (l : list (Z * V)) : In p (zm_del k l) -> In p l.
Proof.
  induction l as [|[j w] l IH]; cbn; [auto|]. destruct (k =? j); cbn; tauto.
Qed.

Definition two (n : node) : Prop := match n with Int cs => (2 <= length cs)%nat | Leaf _ => True end.

(** removing from a child whose removal needs no fixing *)
Lemma remove_child h lo hi ts l e r rec :
  chain (egood h) lo hi (l ++ e :: r) -> Forall (tx_in ts (txg + 1)) (l ++ e :: r) ->
  (l = [] \/ e_key e <= k) -> lt_opt k (nextkey None r) -> locked txg e ->
  (match e_node e with Int _ => mi | Leaf _ => ml end < n_len (e_node e))%nat ->
  rem_post h (e_key e) (nextkey hi r) (e_ts e) (e_node e) (rec (e_node e)) ->
  exists n' popped, rec (e_node e) = Some (n', zm_get k (flats h (l ++ e :: r)), popped) /\
    let cs' := l ++ set_node e n' :: r in
    chain (egood h) lo hi cs' /\ Forall (tx_in ts (txg + 1)) cs' /\
    flats h cs' = zm_del k (flats h (l ++ e :: r)) /\
    Permutation (popped ++ flat_map (addrs_elem h) cs') (flat_map (addrs_elem h) (l ++ e :: r)) /\
    length cs' = length (l ++ e :: r).
Proof.
  intros C F A B [Lp Lt] Ln (n' & po & R & G & Fl & Pe & SK & Len).
  destruct (around lim mi ml _ _ _ _ _ _ _ C A B) as [F1 F2].
  exists n', po. rewrite flats_app, flats_cons, zm_get_app, zm_get_app_r by assumption. split; [exact R|].
  intros cs'. destruct e as [ek es et ep em en]. cbn in Lp, Lt, Ln, G, Fl, Pe, SK, Len. subst ep et.
  cbn [set_node] in cs'.
  split; [|split; [|split; [|split]]].
  - unfold cs'. eapply chain_replace; [exact C|reflexivity|]. apply chain_mid in C. destruct C as (_&_&(E1&E2&E3&E4&E5)&_).
    split; [exact E1|]. split; [exact E2|].
    split; [cbn in E3 |- *; destruct en, n'; cbn in SK, Ln, Len, E3 |- *; try tauto; lia|].
    split; [exact I|]. exact G.
  - apply Forall_mid in F. apply Forall_mid. exact F.
  - unfold cs'. rewrite flats_app, flats_cons. cbn [e_node]. rewrite Fl.
    rewrite zm_del_app, zm_del_app_r by assumption. reflexivity.
  - unfold cs'. rewrite !flat_map_app. cbn [flat_map]. rewrite !addrs_e. cbn [e_ptr e_node opt_list app]. rewrite <- Pe.
    rewrite Permutation_app_swap_app, <- !app_assoc. reflexivity.
  - unfold cs'. rewrite !app_length. reflexivity.
Qed.

Lemma xlock_at_mid h lo hi ts l e r :
  chain (egood h) lo hi (l ++ e :: r) -> Forall (tx_in ts (txg + 1)) (l ++ e :: r) ->
  exists e', xlock_at txg (l ++ e :: r) (length l) = Some (l ++ e' :: r, e', opt_list (e_ptr e)) /\
    chain (egood h) lo hi (l ++ e' :: r) /\ Forall (tx_in ts (txg + 1)) (l ++ e' :: r) /\ locked txg e' /\
    e_key e' = e_key e /\ e_node e' = e_node e /\
    Permutation (opt_list (e_ptr e) ++ flat_map (addrs_elem h) (l ++ e' :: r)) (flat_map (addrs_elem h) (l ++ e :: r)).
Proof.
  intros C F. assert (C0 := C). assert (F0 := F). apply chain_mid in C. destruct C as (_&_&E&_). apply Forall_mid in F. destruct F as (Fa&Fb&Fc).
  destruct (xlock_spec lim mi ml h txg e _ ts (txg + 1) (proj1 (proj1 HL)) (proj1 (proj1 (proj2 HL))) E Fb eq_refl)
      as (e' & Hx & Ee & Te & Q1 & Q2 & Q3 & Q4 & Q5).
  exists e'. unfold xlock_at. rewrite nth_error_mid, Hx, put_child_mid. split; [reflexivity|].
  split; [eapply chain_replace; eauto|]. split; [apply Forall_mid; auto|]. split; [split; assumption|].
  split; [exact Q1|]. split; [exact Q2|].
  rewrite !flat_map_app. cbn [flat_map]. rewrite !addrs_e, Q2, Q3. cbn [opt_list app].
  rewrite Permutation_app_swap_app, <- !app_assoc. reflexivity.
Qed.

Lemma remove_no_fix_spec h : forall lo hi ts n,
  good h lo hi ts (txg + 1) n -> ts <= txg -> two n -> rem_post h lo hi ts n (remove_no_fix lim txg k h n).
Proof.
  induction h as [|h IH]; intros lo hi ts n G T Tw; destruct n as [l|cs]; try (cbn in G; tauto).
  - exists (Leaf (zm_del k l)), []. destruct G as [Z F]. cbn. split; [reflexivity|].
    split; [split; [now apply zm_ok_del|]|].
    + apply Forall_forall. intros p I. rewrite Forall_forall in F. apply F. eapply zm_del_incl; eauto.
    + split; [reflexivity|]. split; [reflexivity|]. split; [exact I|]. now apply zm_del_length.
  - apply good_S in G. destruct G as [C F]. cbn in Tw.
    assert (NE : cs <> []) by (destruct cs; [cbn in Tw; lia|discriminate]).
    destruct (position_split _ _ _ _ k C NE) as (l & e & r & -> & P & A & B).
    cbn [remove_no_fix]. rewrite P.
    destruct (xlock_at_mid _ _ _ _ _ _ _ C F) as (e' & Hx & C1 & F1 & Lk & Q1 & Q2 & Perm).
    rewrite Hx. rewrite <- Q1 in A.
    assert (Fl1 : flats h (l ++ e' :: r) = flats h (l ++ e :: r)) by (rewrite !flats_app, !flats_cons, Q2; reflexivity).
    assert (Len1 : length (l ++ e' :: r) = length (l ++ e :: r)) by (rewrite !app_length; reflexivity).
    destruct (in_danger lim (e_node e')) eqn:Dg.
    + apply Nat.leb_le in Dg.
      assert (FX : exists A' x y B' cs2 popped2 b a, l ++ e' :: r = A' ++ x :: y :: B' /\
          fix_int lim txg (l ++ e' :: r) (length l) = Some (cs2, b, a, popped2) /\
          fixed h lo hi ts txg A' x y B' cs2 /\
          Permutation (popped2 ++ flat_map (addrs_elem h) cs2) (flat_map (addrs_elem h) (l ++ e' :: r)) /\
          (A' = [] \/ e_key x <= k) /\ lt_opt k (nextkey None B') /\
          (n_len (e_node x) <= n_min lim (e_node x) \/ n_len (e_node y) <= n_min lim (e_node x))%nat).
      { destruct r as [|y r].
        - destruct l as [|x l] using rev_ind; [cbn in Tw; lia|]. clear IHl.
          rewrite <- app_assoc in C1, F1 |- *. rewrite <- app_assoc in Perm. cbn [app] in *.
          rewrite app_length, Nat.add_comm. cbn [length plus].
          destruct (fix_int_left h lo hi ts txg l x e' C1 F1 T Lk) as (cs2 & po & Hf & Fx & Pm); [unfold small; lia|].
          destruct Hf as (mb & _ & Hf & _).
          assert (Kx : e_key x < e_key e').
          { apply chain_mid in C1. destruct C1 as (_&_&(H&_)&_). exact H. }
          assert (SK : n_min lim (e_node x) = n_min lim (e_node e')).
          { apply chain_mid in C1. destruct C1 as (_&_&(_&_&_&_&H)&(_&(_&_&_&_&H')&_)). apply same_kind_len. eapply good_same_kind; eauto. }
          exists l, x, e', [], cs2, po; eexists _, _; (split; [reflexivity|]);
            (split; [exact Hf|]); (split; [exact Fx|]); (split; [exact Pm|]);
            (split; [right; destruct A as [A|A]; [destruct l; discriminate A|lia]|]); (split; [exact I|]); right; lia.
        - destruct (fix_int_right h lo hi ts txg l e' y r C1 F1 T Lk) as (cs2 & po & Hf & Fx & Pm & _); [unfold small; lia|].
          assert (Kb : lt_opt k (nextkey None r)).
          { destruct r as [|z r]; [exact I|]. cbn in B |- *. apply chain_mid in C1. destruct C1 as (_&_&_&(_&(H&_)&_)). cbn in H. lia. }
          destruct Hf as [[Hf _]|[Hf _]]; exists l, e', y, r, cs2, po; eexists _, _; (split; [reflexivity|]);
            (split; [exact Hf|]); (split; [exact Fx|]); (split; [exact Pm|]); (split; [exact A|]); (split; [exact Kb|]); left; exact Dg. }
      destruct FX as (A' & x & y & B' & cs2 & po2 & b & a & Heq & Hf & Fx & Pm & Ax & Bx & Sm).
      rewrite Hf. clear Hf. destruct Fx as (C2 & F2 & Fl2 & Shape).
      rewrite <- Heq in Fl2.
      assert (LOK : Forall (fun e => len_ok (e_node e)) (l ++ e' :: r)).
      { apply Forall_forall. intros z I. destruct (chain_in _ _ _ _ _ C1 I) as [_ [nx (_&_&H&_)]]. exact H. }
      rewrite Heq in LOK. apply Forall_mid in LOK. destruct LOK as (_ & Lx & Ly'). inversion Ly' as [|? ? Ly _]; subst. clear Ly'.
      (* the child found after fixing has enough children *)
      assert (SP : exists l2 e2 r2, cs2 = l2 ++ e2 :: r2 /\ position cs2 k = length l2 /\ (l2 = [] \/ e_key e2 <= k) /\ lt_opt k (nextkey None r2) /\
          (match e_node e2 with Int _ => mi | Leaf _ => ml end < n_len (e_node e2))%nat /\ two (e_node e2) /\
          (length (l ++ e :: r) - 1 <= length cs2 <= length (l ++ e :: r))%nat).
      { assert (Lcs : length (l ++ e :: r) = S (S (length A' + length B'))) by (rewrite <- Len1, Heq, app_length; cbn; lia).
        assert (M := HL). destruct M as (M1&M2&M3&M4).
        assert (SKxy : same_kind (e_node x) (e_node y)).
        { rewrite Heq in C1. apply chain_mid in C1. destruct C1 as (_&_&(_&_&_&_&H)&(_&(_&_&_&_&H')&_)). eapply good_same_kind; eauto. }
        destruct Shape as [(m & E & Lm & Km & Nm & SKm)|(x' & y' & E & Lx' & Ly' & Kx & Nxy & SKx & SKy & Mx & My & Strict)].
        - exists A', m, B'. split; [exact E|]. rewrite <- Km in Ax.
          split; [rewrite E in C2 |- *; eapply position_at; eauto|]. split; [exact Ax|]. split; [exact Bx|].
          split; [|split; [|rewrite Lcs, E, app_length; cbn [length]; lia]].
          + destruct (e_node m), (e_node x), (e_node y); cbn in SKm, SKxy, Lx, Ly, Nm |- *; try tauto; lia.
          + destruct (e_node m), (e_node x), (e_node y); cbn in SKm, SKxy, Lx, Ly, Nm |- *; try tauto; lia.
        - specialize (Strict Sm). destruct Strict as [St1 St2]. rewrite <- Kx in Ax.
          destruct (Z.lt_ge_cases k (e_key y')) as [Lt|Ge].
          + exists A', x', (y' :: B'). split; [exact E|].
            split; [rewrite E in C2 |- *; eapply position_at; [exact C2|exact Ax|exact Lt]|]. split; [exact Ax|]. split; [exact Lt|].
            split; [|split; [|rewrite Lcs, E, app_length; cbn [length]; lia]];
            destruct (e_node x), (e_node x'); cbn in SKx, St1 |- *; try tauto; lia.
          + exists (A' ++ [x']), y', B'. rewrite <- app_assoc. split; [exact E|].
            split. { rewrite E in C2 |- *. change (A' ++ x' :: y' :: B') with (A' ++ [x'] ++ y' :: B') in *. rewrite app_assoc in *.
                     eapply position_at; [exact C2|right; exact Ge|exact Bx]. }
            split; [right; exact Ge|]. split; [exact Bx|].
            split; [|split; [|rewrite Lcs, E, app_length; cbn [length]; lia]];
            destruct (e_node x), (e_node y'); cbn in SKy, St2 |- *; try tauto; lia. }
      destruct SP as (l2 & e2 & r2 & -> & P2 & A2 & B2 & Big & Two & Lcs). rewrite P2.
      destruct (xlock_at_mid _ _ _ _ _ _ _ C2 F2) as (e3 & Hx3 & C3 & F3 & Lk3 & Q31 & Q32 & Perm3).
      rewrite Hx3. rewrite <- Q31 in A2. rewrite <- Q32 in Big, Two.
      assert (Fl3 : flats h (l2 ++ e3 :: r2) = flats h (l ++ e :: r)).
      { rewrite <- Fl1, <- Fl2. rewrite !flats_app, !flats_cons, Q32. reflexivity. }
      assert (RP : rem_post h (e_key e3) (nextkey hi r2) (e_ts e3) (e_node e3) (remove_no_fix lim txg k h (e_node e3))).
      { assert (C3' := C3). apply chain_mid in C3'. destruct C3' as (_&_&(E1&E2&E3&E4&E5)&_). destruct Lk3 as [_ Lk3].
        rewrite Lk3 in *. apply IH; [exact E5|lia|exact Two]. }
      destruct (remove_child h lo hi ts l2 e3 r2 _ C3 F3 A2 B2 Lk3 Big RP) as (n' & po4 & R & X1 & X2 & X3 & X4 & X5).
      rewrite R, put_child_mid. eexists _, _. rewrite Fl3. split; [reflexivity|].
      split; [apply good_S; split; assumption|]. rewrite !flat_Int, !addrs_Int. rewrite X3, Fl3. split; [reflexivity|].
      split; [|split; [exact I|cbn [n_len]; rewrite X5; rewrite !app_length in *; cbn [length] in *; lia]].
      rewrite <- Perm, <- Pm, <- Perm3, <- X4, <- !app_assoc. reflexivity.
    + apply Nat.leb_gt in Dg.
      assert (M := HL). destruct M as (M1&M2&M3&M4).
      assert (Big : (match e_node e' with Int _ => mi | Leaf _ => ml end < n_len (e_node e'))%nat).
      { destruct (e_node e'); cbn in Dg |- *; lia. }
      assert (RP : rem_post h (e_key e') (nextkey hi r) (e_ts e') (e_node e') (remove_no_fix lim txg k h (e_node e'))).
      { assert (C3' := C1). apply chain_mid in C3'. destruct C3' as (_&_&(E1&E2&E3&E4&E5)&_). destruct Lk as [_ Lk3].
        rewrite Lk3 in *. apply IH; [exact E5|lia|]. destruct (e_node e'); cbn in Dg |- *; [exact I|lia]. }
      destruct (remove_child h lo hi ts l e' r _ C1 F1 A B Lk Big RP) as (n' & po4 & R & X1 & X2 & X3 & X4 & X5).
      rewrite R, put_child_mid. eexists _, _. rewrite Fl1. split; [reflexivity|].
      split; [apply good_S; split; assumption|]. rewrite !flat_Int, !addrs_Int. rewrite X3, Fl1. split; [reflexivity|].
      split; [|split; [exact I|cbn [n_len]; rewrite X5, Len1; lia]].
      rewrite <- Perm, <- X4, <- !app_assoc. reflexivity.
Qed.

End Key.

(** ** The root *)

Definition root_two (t : tree) : Prop := two (e_node (t_root t)).

Lemma xlock_and_merge_root_spec T txg t : tgood lim mi ml T t -> T <= txg -> (2 <= mi)%nat ->
  exists t' popped, xlock_and_merge_root txg t = Some (t', popped) /\ tgood lim mi ml txg t' /\
    contents t' = contents t /\ Permutation (popped ++ all_addrs t') (all_addrs t) /\
    root_two t' /\ e_ptr (t_root t') = None /\ e_te (t_root t') = txg + 1.
Proof.
  unfold tgood, contents, all_addrs, root_two, xlock_and_merge_root. intros G L K. destruct t as [[rk rs rt rp rm rn] h].
  cbn [t_root t_h e_node xlock_root] in *.
  destruct G as (-> & G & T1 & T2 & Ln & N & Pt).
  assert (G1 : good h 0 None rs (txg + 1) rn) by (eapply good_weaken; [exact G|lia|exact I|lia|lia]).
  set (pp := match rp with None => [] | Some a => [a] end). assert (Hp : pp = opt_list rp) by (destruct rp; reflexivity). clearbody pp. subst pp.
  assert (Same : forall cs, rn = Int cs -> (2 <= length cs)%nat \/ exists c, cs = [c]).
  { intros cs ->. destruct cs as [|c [|d r]]; [destruct N|right; eauto|left; cbn; lia]. }
  assert (Keep : exists t' popped, Some (Tree (Elem 0 rs (txg + 1) None rm rn) h, opt_list rp) = Some (t', popped) /\
     (let 'Elem rk rs rt rp _ rn := t_root t' in
       rk = 0 /\ good (t_h t') 0 None rs rt rn /\ rs <= rt <= txg + 1 /\ rs <= txg /\ (n_len rn <= n_max lim rn)%nat /\ nonempty rn /\
       match rp with None => True | Some a => rs <= a_txg a < rt /\ clean (t_h t') rn end) /\
     flat (t_h t') (e_node (t_root t')) = flat h rn /\
     Permutation (popped ++ addrs_elem (t_h t') (t_root t')) (addrs_elem h (Elem 0 rs rt rp rm rn)) /\
     e_node (t_root t') = rn /\ e_ptr (t_root t') = None /\ e_te (t_root t') = txg + 1).
  { eexists _, _. split; [reflexivity|]. cbn [t_root t_h e_node e_ptr e_te].
    split; [|repeat (split; [reflexivity|]); auto]. split; [reflexivity|]. split; [exact G1|]. repeat (split; [lia|]). auto. }
  destruct rn as [l|cs].
  - destruct Keep as (t' & po & E & X1 & X2 & X3 & X4 & X5). exists t', po. split; [exact E|]. split; [exact X1|].
    split; [exact X2|]. split; [exact X3|]. split; [rewrite X4; exact I|exact X5].
  - destruct (Same cs eq_refl) as [Two|[c ->]].
    + destruct Keep as (t' & po & E & X1 & X2 & X3 & X4 & X5). exists t', po.
      split; [destruct cs as [|? [|? ?]]; cbn in Two; try lia; exact E|]. split; [exact X1|].
      split; [exact X2|]. split; [exact X3|]. split; [rewrite X4; exact Two|exact X5].
    + clear Keep Same. destruct h as [|h]; [destruct G|]. apply good_S in G. destruct G as [(C1 & (E1&E2&E3&E4&E5) & _) F].
      inversion F as [|? ? [F1 F2] _]; subst. destruct c as [ck cs0 ct cp cm cn].
      cbn [set_key xlock_root]. cbn [e_key e_ts e_te e_node nextkey] in *.
      eexists _, _. split; [reflexivity|]. cbn [t_root t_h e_node e_ptr e_te].
      split; [|split; [cbn; rewrite app_nil_r; reflexivity|split; [|split; [|auto]]]].
      * split; [reflexivity|]. split; [eapply good_weaken; [exact E5|lia|apply le_opt_refl|lia|lia]|].
        repeat (split; [lia|]). split; [destruct cn; cbn in E3 |- *; lia|]. split; [|exact I].
        eapply len_ok_nonempty; eauto.
      * rewrite addrs_elem_Int. cbn [flat_map]. rewrite !addrs_e. cbn [e_ptr e_node opt_list app]. rewrite app_nil_r.
        destruct cp; cbn [opt_list app]; rewrite <- ?app_assoc; reflexivity.
      * destruct cn; cbn in E3 |- *; [exact I|lia].
Qed.

Theorem remove_spec T txg (t : tree) k : tgood lim mi ml T t -> T <= txg -> (2 <= mi)%nat ->
  exists t' popped, remove lim txg k t = Some (t', zm_get k (contents t), popped) /\
    tgood lim mi ml txg t' /\ contents t' = zm_del k (contents t) /\
    Permutation (popped ++ all_addrs t') (all_addrs t) /\ e_ptr (t_root t') = None.
Proof.
  intros G L M. destruct (xlock_and_merge_root_spec T txg t G L M) as (t1 & po & E & G1 & C1 & P1 & Tw & Pt & Te).
  unfold remove. rewrite E. destruct t1 as [[rk rs rt rp rm rn] h]. unfold root_two in Tw. unfold contents, all_addrs in *.
  cbn [t_root t_h e_node e_ptr e_te] in *. subst rp rt.
  destruct G1 as (K & G1 & T1 & T2 & Ln & N & _). cbn [t_root t_h] in *.
  destruct (remove_no_fix_spec txg k h 0 None rs rn G1 T2 Tw) as (n' & po' & R & X1 & X2 & X3 & X4 & X5).
  rewrite R. eexists _, _. rewrite <- C1. split; [reflexivity|]. cbn [t_root t_h e_node set_node e_ptr].
  split; [|split; [rewrite X2; reflexivity|split; [|reflexivity]]].
  - split; [exact K|]. split; [exact X1|]. repeat (split; [lia|]).
    split; [destruct (same_kind_len _ _ X4); lia|]. split; [|exact I].
    destruct rn, n'; cbn in X4, Tw, X5 |- *; try tauto. destruct children0; [cbn in X5; lia|exact I].
  - rewrite <- P1, <- app_assoc. apply Permutation_app_head. rewrite !addrs_e. cbn [e_ptr e_node opt_list app]. exact X3.
Qed.

End Remove.
