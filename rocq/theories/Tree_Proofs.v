(** * The B-tree: lookup, insertion and removal *)
From Verif Require Import Common ZMap Tree_Model Tree_Inv.
From Coq Require Import Permutation.

Section Proofs.
Context {V : Type}.
Notation elem := (@elem V).
Notation node := (@node V).
Notation tree := (@tree V).
Context (lim : limits) (mi ml : nat).

Definition lims_ok : Prop :=
  (1 <= mi <= min_int lim)%nat /\ (1 <= ml <= min_leaf lim)%nat /\
  (2 * min_int lim + 1 <= max_int lim)%nat /\ (2 * min_leaf lim + 1 <= max_leaf lim)%nat.
Context (HL : lims_ok).

Notation good := (@good V lim mi ml).
Notation egood := (@egood V lim mi ml).
Notation len_ok := (@len_ok V lim mi ml).

(** an interior node has a child *)
Definition nonempty (n : node) : Prop := match n with Int [] => False | _ => True end.
Lemma len_ok_nonempty n : len_ok n -> nonempty n.
Proof. destruct HL as (A&_). destruct n as [|[|]]; cbn; auto. lia. Qed.

(** ** Lookup *)

Lemma around h lo hi l e r k (Q : chain (egood h) lo hi (l ++ e :: r)) :
  (l = [] \/ e_key e <= k) -> lt_opt k (nextkey None r) ->
  Forall (fun p : Z * V => fst p < k) (flats h l) /\ Forall (fun p : Z * V => k < fst p) (flats h r).
Proof.
  intros A B. destruct (chain_parts _ _ _ _ _ _ _ _ _ Q) as (X & _ & Y). split.
  - destruct A as [->|A]; [constructor|]. eapply Forall_impl; [|exact X]. cbn; intros; lia.
  - destruct r as [|c r]; [constructor|]. cbn in B. eapply Forall_impl; [|exact Y]. intros p Hp.
    specialize (Hp _ eq_refl). lia.
Qed.

Lemma get_r_spec h : forall lo hi ts te n k,
  good h lo hi ts te n -> nonempty n -> get_r h n k = Some (zm_get k (flat h n)).
Proof.
  induction h as [|h IH]; intros lo hi ts te n k G N; destruct n as [l|cs]; try (cbn in G; tauto).
  apply good_S in G. destruct G as [C _]. cbn [get_r].
  destruct (position_split _ _ _ _ k C) as (l & e & r & -> & P & A & B). { destruct cs; [destruct N|discriminate]. }
  rewrite P, nth_error_mid.
  destruct (around _ _ _ _ _ _ _ C A B) as [F1 F2].
  apply chain_mid in C. destruct C as (_ & _ & (E1&E2&E3&E4&E5) & _).
  erewrite IH; [|exact E5|apply len_ok_nonempty, E3].
  rewrite flat_Int, flats_app, flats_cons. rewrite zm_get_app by assumption. rewrite zm_get_app_r by assumption. reflexivity.
Qed.

Lemma leaf_last_spec (l : list (Z * V)) :
  leaf_last l = match rev l with [] => None | p :: _ => Some (fst p) end.
Proof.
  unfold leaf_last. destruct l as [|p l] using rev_ind; [reflexivity|].
  rewrite rev_app_distr, app_length. cbn. rewrite nth_error_app2 by lia.
  replace (length l + 1 - 1 - length l)%nat with O by lia. reflexivity.
Qed.

Lemma good_flat_nonempty h : forall lo hi ts te n, good h lo hi ts te n -> len_ok n -> flat h n <> [].
Proof.
  destruct HL as (M1&M2&_).
  induction h as [|h IH]; intros lo hi ts te n G L; destruct n as [l|cs]; try (cbn in G; tauto).
  - cbn in *. destruct l; [cbn in L; lia|discriminate].
  - apply good_S in G. destruct G as [C _]. destruct cs as [|e r]; [cbn in L; lia|].
    destruct C as (_ & (_&_&B&_&D) & _). rewrite flat_Int, flats_cons. specialize (IH _ _ _ _ _ D B).
    destruct (flat h (e_node e)); [congruence|discriminate].
Qed.

Lemma last_key_r_spec h : forall lo hi ts te n,
  good h lo hi ts te n -> nonempty n ->
  last_key_r h n = Some (match rev (flat h n) with [] => None | p :: _ => Some (fst p) end).
Proof.
  induction h as [|h IH]; intros lo hi ts te n G N; destruct n as [l|cs]; try (cbn in G; tauto).
  - cbn. now rewrite leaf_last_spec.
  - apply good_S in G. destruct G as [C _]. cbn [last_key_r].
    destruct cs as [|e cs] using rev_ind; [destruct N|]. clear IHcs.
    rewrite app_length. cbn [length]. replace (length cs + 1 - 1)%nat with (length cs) by lia. rewrite nth_error_mid.
    apply chain_mid in C. destruct C as (_ & _ & (E1&E2&E3&E4&E5) & _).
    erewrite IH; [|exact E5|apply len_ok_nonempty, E3].
    rewrite flat_Int, flats_app, flats_cons. cbn [flats flat_map]. rewrite app_nil_r, rev_app_distr.
    assert (NE := good_flat_nonempty _ _ _ _ _ _ E5 E3).
    destruct (rev (flat h (e_node e))) as [|p q] eqn:R; [|reflexivity].
    apply (f_equal (@rev _)) in R. rewrite rev_involutive in R. cbn in R. congruence.
Qed.

(** ** Splitting *)

Lemma div2_half n : (2 * Nat.div2 n <= n <= 2 * Nat.div2 n + 1)%nat.
Proof. destruct (Nat.Even_or_Odd n) as [[k ->]|[k ->]]; [rewrite Nat.div2_double|rewrite Nat.add_1_r, Nat.div2_succ_double]; lia. Qed.

Lemma skipn_cons_ex {A} n (l : list A) : (n < length l)%nat -> exists x r, skipn n l = x :: r.
Proof.
  intros H. destruct (skipn n l) as [|x r] eqn:E; eauto.
  apply (f_equal (@length _)) in E. rewrite skipn_length in E. cbn in E. lia.
Qed.

Lemma split_spec h lo hi ts txg n seq :
  good h lo hi ts (txg + 1) n -> ts <= txg -> n_len n = n_max lim n ->
  exists l os new, split lim seq txg n = Some (l, (os, txg + 1), new) /\
    ts <= os <= txg /\ ts <= e_ts new /\ e_te new = txg + 1 /\ e_ptr new = None /\ e_mark new = false /\
    good h lo (Some (e_key new)) os (txg + 1) l /\ egood h new hi /\ lo < e_key new /\
    flat h l ++ flat h (e_node new) = flat h n /\
    addrs_below h l ++ addrs_below h (e_node new) = addrs_below h n /\
    len_ok l /\ (n_len l < n_max lim l)%nat /\ (n_len (e_node new) < n_max lim (e_node new))%nat.
Proof.
  intros G T L. destruct HL as (M1&M2&M3&M4).
  unfold split. assert (Ls : (seq && (n_len n <? n_min lim n)%nat) = false).
  { destruct seq; [|reflexivity]. cbn. apply Nat.ltb_ge. destruct n; cbn in *; lia. }
  rewrite Ls. set (left := if seq then _ else _).
  assert (Hl : (n_min lim n <= left /\ left + n_min lim n <= n_len n)%nat).
  { unfold left. destruct seq; destruct n; cbn in *.
    1,2: lia.
    - pose proof (div2_half (length items + 1)); lia.
    - pose proof (div2_half (length children + 1)); lia. }
  clearbody left. destruct n as [l|cs].
  - cbn in Hl, L. destruct h; [|destruct G]. destruct G as [Zk F].
    destruct (skipn_cons_ex left l) as ([k v] & r & E); [lia|]. rewrite E.
    assert (El : l = firstn left l ++ (k, v) :: r) by (rewrite <- E; symmetry; apply firstn_skipn).
    assert (Len1 : length (firstn left l) = left) by (apply firstn_length_le; lia).
    assert (Len2 : length ((k, v) :: r) = (length l - left)%nat) by (rewrite <- E; apply skipn_length).
    rewrite El in Zk, F. apply zm_ok_app in Zk. destruct Zk as (Z1 & Z2 & Z3).
    apply Forall_app in F. destruct F as [F1 F2].
    exists (Leaf (firstn left l)), txg, (Elem k txg (txg + 1) None false (Leaf ((k, v) :: r))).
    split; [reflexivity|]. cbn [e_ts e_te e_ptr e_mark e_key e_node].
    repeat (split; [first [lia|reflexivity]|]). 
    assert (Lo : lo < k).
    { destruct (firstn left l) as [|p q] eqn:Ef; [cbn in Len1; lia|]. inversion F1; subst.
      specialize (Z3 p (k, v) (or_introl eq_refl) (or_introl eq_refl)). cbn in Z3. lia. }
    split; [|split; [|split; [exact Lo|split; [cbn [flat]; symmetry; exact El|split; [reflexivity|]]]]].
    + cbn. split; [exact Z1|]. apply Forall_forall. intros p I. split.
      * rewrite Forall_forall in F1. now apply F1.
      * apply (Z3 p (k, v)); [exact I|now left].
    + inversion F2 as [|? ? [Hk1 Hk2] Hr]; subst. split; [exact Hk2|]. split; [cbn; lia|].
      split; [cbn in *; lia|]. split; [exact I|]. cbn. split; [exact Z2|].
      apply zm_ok_cons in Z2. destruct Z2 as [_ Z2]. constructor; [split; [cbn; lia|exact Hk2]|].
      rewrite Forall_forall in *. intros p I. specialize (Z2 p I). destruct (Hr p I). cbn in *; split; [lia|assumption].
    + cbn in *. lia.
  - cbn in Hl, L. destruct h; [destruct G|]. apply good_S in G. destruct G as [C F].
    destruct (skipn_cons_ex left cs) as (e & r & E); [lia|]. rewrite E.
    assert (El : cs = firstn left cs ++ e :: r) by (rewrite <- E; symmetry; apply firstn_skipn).
    assert (Len1 : length (firstn left cs) = left) by (apply firstn_length_le; lia).
    assert (Len2 : length (e :: r) = (length cs - left)%nat) by (rewrite <- E; apply skipn_length).
    set (L1 := firstn left cs) in *. clearbody L1. subst cs.
    assert (Key : Forall (fun c => e_key c < e_key e) L1) by (eapply chain_keys_lt; exact C).
    apply chain_app in C. destruct C as [C1 C2]. apply Forall_app in F. destruct F as [F1 F2].
    assert (TS : forall x lo' hi' m, chain (egood h) lo' hi' x -> Forall (tx_in ts (txg + 1)) x -> min_ts x = Some m -> ts <= m <= txg /\ Forall (tx_in m (txg + 1)) x).
    { intros x lo' hi' m Cx Fx Hm. apply min_ts_spec in Hm. destruct Hm as [Fm (c & Ic & Qc)].
      rewrite Forall_forall in Fx, Fm. destruct (Fx c Ic) as [X Y].
      destruct (chain_in _ _ _ _ _ Cx Ic) as [_ [nx (_&Z&_)]]. split; [lia|].
      apply Forall_forall. intros y Iy. specialize (Fx y Iy). specialize (Fm y Iy). unfold tx_in in *. lia. }
    destruct (min_ts_some L1) as [s Hs]. { destruct L1; [cbn in Len1; lia|discriminate]. }
    destruct (min_ts_some (e :: r)) as [s' Hs']; [discriminate|].
    destruct (TS _ _ _ _ C1 F1 Hs) as [S1 S2]. destruct (TS _ _ _ _ C2 F2 Hs') as [S3 S4]. clear TS.
    rewrite Hs, Hs'.
    exists (Int L1), s, (Elem (e_key e) s' (txg + 1) None false (Int (e :: r))).
    split; [reflexivity|]. cbn [e_ts e_te e_ptr e_mark e_key e_node].
    repeat (split; [first [lia|reflexivity]|]).
    assert (Lo : lo < e_key e).
    { destruct L1 as [|p q]; [cbn in Len1; lia|]. inversion Key; subst. destruct C1 as [X _]. lia. }
    split; [|split; [|split; [exact Lo|split; [|split]]]].
    + apply good_S. split; [exact C1|exact S2].
    + split. { change (lt_opt (e_key e) hi). eapply chain_key_hi; [exact C2|now left]. }
      split; [cbn; lia|]. split; [cbn in *; lia|]. split; [exact I|].
      cbn [e_node e_key e_ts e_te]. apply good_S. split; [|exact S4].
      destruct C2 as (X & Y & Z). split; [lia|]. split; [exact Y|exact Z].
    + rewrite !flat_Int, flats_app. reflexivity.
    + rewrite !addrs_Int, flat_map_app. reflexivity.
    + cbn in *. lia.
Qed.

(** ** Insertion *)

Lemma addrs_elem_Int h k s t p m (cs : list elem) :
  addrs_elem (S h) (Elem k s t p m (Int cs)) = opt_list p ++ flat_map (addrs_elem h) cs.
Proof. reflexivity. Qed.
Lemma perm_mid {A} (op po X X' L R : list A) : Permutation (po ++ X') X ->
  Permutation ((op ++ po) ++ L ++ X' ++ R) (L ++ (op ++ X) ++ R).
Proof.
  intros <-. rewrite !app_assoc. apply Permutation_app_tail. rewrite <- !app_assoc.
  rewrite (Permutation_app_swap_app L op). apply Permutation_app_head. apply Permutation_app_swap_app.
Qed.

Section Insert.
Context (seq : bool) (txg k : Z) (v : V).

(** what inserting into the children [cs] of a node of height [S h] must achieve *)
Definition ins_post (d h : nat) (lo : Z) (hi : option Z) (ts : Z) (cs : list elem)
  (res : option (list elem * option V * list addr)) : Prop :=
  exists cs' popped, res = Some (cs', zm_get k (flats h cs), popped) /\
    chain (egood h) lo hi cs' /\ Forall (tx_in ts (txg + 1)) cs' /\
    flats h cs' = zm_set k v (flats h cs) /\
    Permutation (popped ++ flat_map (addrs_elem h) cs') (flat_map (addrs_elem h) cs) /\
    (length cs <= length cs' <= length cs + d)%nat.


Lemma zm_set_length (l : list (Z * V)) : zm_ok l ->
  length (zm_set k v l) = if zm_mem k l then length l else S (length l).
Proof.
  induction l as [|[j w] l IH]; [reflexivity|]. intros Z. apply zm_ok_cons in Z. destruct Z as [Z F].
  cbn [zm_set]. unfold zm_mem. cbn [zm_get].
  destruct (Z.ltb_spec k j) as [L|L].
  - destruct (Z.eqb_spec k j); [lia|]. rewrite zm_get_lt; [reflexivity|].
    eapply Forall_impl; [|exact F]. cbn; intros; lia.
  - destruct (Z.eqb_spec k j) as [E|E]; [reflexivity|]. cbn [length]. rewrite IH by exact Z.
    unfold zm_mem. destruct (zm_get k l); reflexivity.
Qed.

Lemma good_leaf_set lo hi l : good O lo hi 0 0 (Leaf l) -> lo <= k -> lt_opt k hi ->
  good O lo hi 0 0 (Leaf (zm_set k v l)).
Proof.
  cbn. intros [Z F] A B. split; [now apply zm_ok_set|].
  apply Forall_forall. intros p I. apply zm_set_fst in I. destruct I as [->|I]; [split; assumption|].
  rewrite Forall_forall in F. now apply F.
Qed.

(** the child chosen does not need to be split *)
Lemma ins_nosplit h lo hi ts l e r rec retry :
  (forall lo hi ts cs, chain (egood (pred h)) lo hi cs -> Forall (tx_in ts (txg + 1)) cs -> ts <= txg -> cs <> [] ->
     (length cs < max_int lim)%nat -> lo <= k -> lt_opt k hi -> (1 <= h)%nat -> ins_post 1 (pred h) lo hi ts cs (rec cs)) ->
  chain (egood h) lo hi (l ++ e :: r) -> Forall (tx_in ts (txg + 1)) (l ++ e :: r) -> ts <= txg ->
  (l = [] \/ e_key e <= k) -> lt_opt k (nextkey None r) -> lo <= k -> lt_opt k hi ->
  should_split lim k (e_node e) = false ->
  ins_post 0 h lo hi ts (l ++ e :: r) (ins_try lim seq txg k v rec retry (l ++ e :: r)).
Proof.
  intros IH C F T A B Lo Hi NS.
  assert (P : position (l ++ e :: r) k = length l) by (eapply position_at; eauto).
  assert (Ar := around _ _ _ _ _ _ _ C A B). destruct Ar as [Ar1 Ar2].
  destruct retry; cbn [ins_try]; rewrite P, nth_error_mid, firstn_mid, skipn_mid; destruct e as [k0 s0 t0 p0 m0 n0].
  all: set (e0 := Elem k0 s0 t0 p0 m0 n0) in *; set (e1 := if k <? k0 then Elem k s0 t0 p0 m0 n0 else e0).
  all: assert (C1 : chain (egood h) lo hi (l ++ e1 :: r)).
  1, 3: unfold e1; destruct (Z.ltb_spec k k0) as [Lt|Ge]; [|exact C];
      destruct A as [->|A]; [|cbn in A; lia];
      cbn [app] in C |- *; destruct C as (X & (E1&E2&E3&E4&E5) & Y); cbn in X, E1, E2, E3, E5, Y;
      split; [exact Lo|]; split;
      [split; [cbn; eapply lt_opt_next; eauto|]; split; [exact E2|]; split; [exact E3|]; split; [exact E4|];
       cbn; eapply good_weaken; [exact E5|lia|apply le_opt_refl|lia|lia]
      |eapply chain_relo; [exact Y|]; cbn; eapply lt_opt_next; eauto].
  all: assert (K1 : e_key e1 <= k) by (unfold e1; destruct (Z.ltb_spec k k0); cbn; lia).
  all: assert (Tx1 : tx_in ts (txg + 1) e1) by (apply Forall_mid in F; destruct F as (_&F&_); unfold e1; destruct (k <? k0); exact F).
  all: assert (N1 : e_node e1 = n0) by (unfold e1; destruct (k <? k0); reflexivity).
  all: assert (P1 : e_ptr e1 = p0) by (unfold e1; destruct (k <? k0); reflexivity).
  all: assert (Eg := C1); apply chain_mid in Eg; destruct Eg as (_ & _ & Eg & _).
  all: destruct (xlock_spec lim mi ml h txg e1 _ ts (txg + 1) (proj1 (proj1 HL)) (proj1 (proj1 (proj2 HL))) Eg Tx1 eq_refl)
      as (e2 & Hx & Eg2 & Tx2 & Q1 & Q2 & Q3 & Q4 & Q5); rewrite Hx; clear Hx.
  all: destruct e2 as [k2 s2 t2 p2 m2 n2]; cbn in Q1, Q2, Q3, Q4, Q5; subst k2 n2 p2 t2; rewrite N1 in *.
  all: change (should_split lim k n0 = false) in NS; rewrite NS.
  all: destruct n0 as [lf|cs0].
  1, 3: destruct h as [|h]; [|exfalso; destruct Eg2 as (_&_&_&_&X); exact X];
      exists (l ++ Elem (e_key e1) txg (txg + 1) None m2 (Leaf (zm_set k v lf)) :: r), (opt_list (e_ptr e1));
      destruct Eg2 as (E1&E2&E3&E4&E5); cbn in E1, E2, E3, E5;
      split; [rewrite flats_app, flats_cons, zm_get_app, zm_get_app_r by assumption; reflexivity|];
      split; [|split; [|split; [|split]]];
      [ eapply chain_replace; [exact C1|reflexivity|]; split; [exact E1|]; split; [cbn; lia|]; split;
        [cbn in NS |- *; rewrite zm_set_length by apply E5; destruct (zm_mem k lf); [lia|apply Nat.leb_gt in NS; lia]|];
        split; [exact I|]; apply (good_leaf_set (e_key e1) _ lf); [exact E5|exact K1|eapply lt_opt_next; eauto]
      | apply Forall_mid in F; apply Forall_mid; repeat split; try apply F; cbn; lia
      | rewrite !flats_app, !flats_cons; rewrite zm_set_app, zm_set_app_r by assumption; reflexivity
      | rewrite !addrs_mid; unfold addrs_elem; rewrite P1; cbn; rewrite Permutation_app_comm; rewrite <- app_assoc;
        apply Permutation_app_head; rewrite app_nil_r; apply Permutation_app_comm
      | rewrite !app_length; cbn; lia ].
  all: destruct h as [|h]; [exfalso; destruct Eg2 as (_&_&_&_&X); exact X|]; cbn [pred] in IH;
      destruct Eg2 as (E1&E2&E3&E4&E5); cbn in E1, E2, E3; cbn [e_node e_key e_ts e_te] in E5; apply good_S in E5; destruct E5 as [Ci Fi];
      destruct (IH _ _ _ _ Ci Fi) as (cs' & popped & R & Rc & Rf & Rfl & Rp & Rl);
      [unfold tx_in in Tx2; cbn in Tx2; lia | destruct cs0; [cbn in E3; destruct HL; lia|discriminate]
      | cbn in NS; apply Nat.leb_gt in NS; exact NS | exact K1 | eapply lt_opt_next; eauto | lia |];
      rewrite R;
      exists (l ++ Elem (e_key e1) s2 (txg + 1) None m2 (Int cs') :: r), (opt_list (e_ptr e1) ++ popped);
      split; [rewrite flats_app, flats_cons, zm_get_app, zm_get_app_r by assumption; reflexivity|];
      split; [|split; [|split; [|split]]];
      [ eapply chain_replace; [exact C1|reflexivity|]; split; [exact E1|]; split; [cbn; lia|]; split;
        [cbn in NS |- *; apply Nat.leb_gt in NS; lia|]; split; [exact I|]; cbn [e_node e_key e_ts e_te]; apply good_S; split; assumption
      | apply Forall_mid in F; apply Forall_mid; repeat split; try apply F; apply Tx2
      | rewrite !flats_app, !flats_cons; rewrite zm_set_app, zm_set_app_r by assumption; cbn [e_node];
        rewrite !flat_Int, Rfl; reflexivity
      | rewrite !addrs_mid; unfold e0; rewrite P1, !addrs_elem_Int; cbn [opt_list app]; apply perm_mid; exact Rp
      | rewrite !app_length; cbn; lia ].
Qed.


Lemma ins_try_spec h lo hi ts cs rec retry :
  (forall lo hi ts cs, chain (egood (pred h)) lo hi cs -> Forall (tx_in ts (txg + 1)) cs -> ts <= txg -> cs <> [] ->
     (length cs < max_int lim)%nat -> lo <= k -> lt_opt k hi -> (1 <= h)%nat -> ins_post 1 (pred h) lo hi ts cs (rec cs)) ->
  chain (egood h) lo hi cs -> Forall (tx_in ts (txg + 1)) cs -> ts <= txg -> cs <> [] -> lo <= k -> lt_opt k hi ->
  ins_post 1 h lo hi ts cs (ins_try lim seq txg k v rec (S retry) cs).
Proof.
  intros IH C F T N Lo Hi.
  destruct (position_split _ _ _ _ k C N) as (l & e & r & -> & P & A & B).
  destruct (should_split lim k (e_node e)) eqn:SS.
  2:{ destruct (ins_nosplit h lo hi ts l e r rec (S retry)) as (cs' & po & X1 & X2 & X3 & X4 & X5 & X6); auto.
      exists cs', po. repeat (split; [assumption|]). lia. }
  cbn [ins_try]. rewrite P, nth_error_mid, firstn_mid, skipn_mid. destruct e as [k0 s0 t0 p0 m0 n0].
  set (e0 := Elem k0 s0 t0 p0 m0 n0) in *. set (e1 := if k <? k0 then Elem k s0 t0 p0 m0 n0 else e0).
  assert (C1 : chain (egood h) lo hi (l ++ e1 :: r)).
  { unfold e1. destruct (Z.ltb_spec k k0) as [Lt|Ge]; [|exact C].
    destruct A as [->|A]; [|cbn in A; lia].
    cbn [app] in C |- *. destruct C as (X & (E1&E2&E3&E4&E5) & Y). cbn in X, E1, E2, E3, E5, Y.
    split; [exact Lo|]. split.
    - split; [cbn; eapply lt_opt_next; eauto|]. split; [exact E2|]. split; [exact E3|]. split; [exact E4|].
      cbn. eapply good_weaken; [exact E5|lia|apply le_opt_refl|lia|lia].
    - eapply chain_relo; [exact Y|]. cbn. eapply lt_opt_next; eauto. }
  assert (K1 : e_key e1 <= k) by (unfold e1; destruct (Z.ltb_spec k k0); cbn; lia).
  assert (Tx1 : tx_in ts (txg + 1) e1) by (apply Forall_mid in F; destruct F as (_&F&_); unfold e1; destruct (k <? k0); exact F).
  assert (N1 : e_node e1 = n0) by (unfold e1; destruct (k <? k0); reflexivity).
  assert (P1 : e_ptr e1 = p0) by (unfold e1; destruct (k <? k0); reflexivity).
  assert (Eg := C1). apply chain_mid in Eg. destruct Eg as (_ & _ & Eg & _).
  destruct (xlock_spec lim mi ml h txg e1 _ ts (txg + 1) (proj1 (proj1 HL)) (proj1 (proj1 (proj2 HL))) Eg Tx1 eq_refl)
      as (e2 & Hx & Eg2 & Tx2 & Q1 & Q2 & Q3 & Q4 & Q5). rewrite Hx. clear Hx.
  destruct e2 as [k2 s2 t2 p2 m2 n2]. cbn in Q1, Q2, Q3, Q4, Q5. subst k2 n2 p2 t2. rewrite N1 in *.
  change (should_split lim k n0 = true) in SS. rewrite SS.
  assert (Full : n_len n0 = n_max lim n0).
  { destruct Eg2 as (_&_&E3&_). destruct n0; cbn in SS, E3 |- *; [destruct (zm_mem k items); [discriminate|]|];
      apply Nat.leb_le in SS; lia. }
  destruct Eg2 as (E1&E2&E3&E4&E5). cbn [e_key e_ts e_te e_node] in E1, E2, E3, E5.
  destruct Tx2 as [Tx2 Tx3]. cbn in Tx2, Tx3.
  destruct (split_spec h (e_key e1) (nextkey hi r) s2 txg n0 seq E5 ltac:(lia) Full)
    as (L & os & new & Sp & S1 & S2 & S3 & S4 & S5 & S6 & S7 & S8 & S9 & S10 & S11 & S12 & S13).
  rewrite Sp. set (lf := Elem (e_key e1) os (txg + 1) None m2 L).
  assert (C2 : chain (egood h) lo hi (l ++ lf :: new :: r)).
  { eapply chain_replace2; [exact C1|reflexivity| |exact S7].
    split; [exact S8|]. split; [cbn; lia|]. split; [exact S11|]. split; [exact I|]. exact S6. }
  assert (F2 : Forall (tx_in ts (txg + 1)) (l ++ lf :: new :: r)).
  { apply Forall_mid in F. destruct F as (Fa & _ & Fc). apply Forall_mid. split; [exact Fa|].
    split; [unfold tx_in; cbn; lia|]. constructor; [unfold tx_in; lia|exact Fc]. }
  assert (Fl : flats h (l ++ lf :: new :: r) = flats h (l ++ e0 :: r)).
  { rewrite !flats_app, !flats_cons. cbn [lf e0 e_node]. rewrite <- S9, <- !app_assoc. reflexivity. }
  assert (Ad : Permutation (opt_list p0 ++ flat_map (addrs_elem h) (l ++ lf :: new :: r)) (flat_map (addrs_elem h) (l ++ e0 :: r))).
  { rewrite !flat_map_app. cbn [flat_map]. unfold addrs_elem at 2 3 6. cbn [lf e0 e_node e_ptr]. rewrite S4.
    cbn [opt_list app]. rewrite <- S10. rewrite Permutation_app_swap_app. rewrite <- !app_assoc. reflexivity. }
  assert (NS : forall n : node, (n_len n < n_max lim n)%nat -> should_split lim k n = false).
  { intros n H. destruct n; cbn in *; [destruct (zm_mem k items); [reflexivity|]|]; apply Nat.leb_gt; exact H. }
  assert (Len : length (l ++ lf :: new :: r) = S (length (l ++ e0 :: r))) by (rewrite !app_length; cbn; lia).
  assert (R : ins_post 0 h lo hi ts (l ++ lf :: new :: r) (ins_try lim seq txg k v rec retry (l ++ lf :: new :: r))).
  { destruct (Z.lt_ge_cases k (e_key new)) as [Lt|Ge].
    - apply ins_nosplit; auto.
    - change (l ++ lf :: new :: r) with (l ++ [lf] ++ new :: r). rewrite app_assoc. apply ins_nosplit; auto.
      all: rewrite <- app_assoc; assumption. }
  destruct R as (cs' & po & X1 & X2 & X3 & X4 & X5 & X6). rewrite X1.
  exists cs', (opt_list (e_ptr e1) ++ po). rewrite Fl. split; [reflexivity|]. split; [exact X2|]. split; [exact X3|].
  split; [rewrite X4, Fl; reflexivity|]. split; [|lia].
  rewrite <- app_assoc, X5, P1. exact Ad.
Qed.

Lemma insert_int_spec h : forall lo hi ts cs,
  chain (egood h) lo hi cs -> Forall (tx_in ts (txg + 1)) cs -> ts <= txg -> cs <> [] -> lo <= k -> lt_opt k hi ->
  ins_post 1 h lo hi ts cs (insert_int lim seq txg k v (S h) cs).
Proof.
  induction h as [|h IH]; intros lo hi ts cs C F T N A B; cbn [insert_int]; apply ins_try_spec; auto.
  - intros; lia.
  - intros. cbn [pred]. apply IH; auto.
Qed.

End Insert.

(** ** The whole tree *)

(** the invariant of a tree on which no operation later than transaction [T] has been performed *)
Definition tgood (T : Z) (t : tree) : Prop :=
  let 'Elem rk rs rt rp _ rn := t_root t in
  rk = 0 /\ good (t_h t) 0 None rs rt rn /\ rs <= rt <= T + 1 /\ rs <= T /\
  (n_len rn <= n_max lim rn)%nat /\ nonempty rn /\
  match rp with None => True | Some a => rs <= a_txg a < rt /\ clean (t_h t) rn end.

Definition contents (t : tree) : list (Z * V) := flat (t_h t) (e_node (t_root t)).
Definition all_addrs (t : tree) : list addr := addrs_elem (t_h t) (t_root t).

Lemma tgood_mono T T' t : T <= T' -> tgood T t -> tgood T' t.
Proof.
  intros L. unfold tgood. destruct (t_root t) as [rk rs rt rp rm rn]. intros (A&B&C&D&E&F&G).
  split; [exact A|]. split; [exact B|]. repeat (split; [lia|]). split; assumption.
Qed.

Lemma tgood_empty T : 0 <= T -> tgood T (Tree default_elem 0).
Proof.
  intros L. unfold tgood. cbn. split; [reflexivity|]. split; [split; [apply zm_ok_nil|constructor]|].
  repeat (split; [lia|]). auto.
Qed.

Lemma tgood_ok T t : tgood T t -> zm_ok (contents t).
Proof.
  unfold tgood, contents. destruct (t_root t) as [rk rs rt rp rm rn]. intros (_&G&_). cbn. eapply good_flat; eauto.
Qed.
Lemma tgood_nonneg T t : tgood T t -> Forall (fun p => 0 <= fst p) (contents t).
Proof.
  unfold tgood, contents. destruct (t_root t) as [rk rs rt rp rm rn]. intros (_&G&_). cbn.
  apply good_flat in G. eapply Forall_impl; [|apply G]. intros p [H _]. exact H.
Qed.

Theorem get_spec T t k : tgood T t -> get t k = Some (zm_get k (contents t)).
Proof.
  unfold tgood, get, contents. destruct (t_root t) as [rk rs rt rp rm rn]. intros (_&G&_&_&_&N&_). cbn [e_node].
  eapply get_r_spec; eauto.
Qed.

Theorem last_key_spec T t : tgood T t ->
  last_key t = Some (match rev (contents t) with [] => None | p :: _ => Some (fst p) end).
Proof.
  unfold tgood, last_key, contents. destruct (t_root t) as [rk rs rt rp rm rn]. intros (_&G&_&_&_&N&_). cbn [e_node].
  eapply last_key_r_spec; eauto.
Qed.

Theorem insert_spec T txg t seq k v : tgood T t -> T <= txg -> 0 <= k ->
  exists t' popped, insert lim seq txg k v t = Some (t', zm_get k (contents t), popped) /\
    tgood txg t' /\ contents t' = zm_set k v (contents t) /\
    Permutation (popped ++ all_addrs t') (all_addrs t) /\ e_ptr (t_root t') = None.
Proof.
  unfold tgood, contents, all_addrs, insert. intros G L K. destruct t as [[rk rs rt rp rm rn] h].
  cbn [t_root t_h e_node xlock_root] in *.
  destruct G as (-> & G & T1 & T2 & Ln & N & Pt).
  assert (G1 : good h 0 None rs (txg + 1) rn) by (eapply good_weaken; [exact G|lia|exact I|lia|lia]).
  set (pp := match rp with None => [] | Some a => [a] end). assert (Hp : pp = opt_list rp) by (destruct rp; reflexivity). clearbody pp. subst pp.
  destruct (should_split lim k rn) eqn:SS.
  - assert (Full : n_len rn = n_max lim rn).
    { destruct rn; cbn in SS, Ln |- *; [destruct (zm_mem k items); [discriminate|]|]; apply Nat.leb_le in SS; lia. }
    destruct (split_spec h 0 None rs txg rn seq G1 ltac:(lia) Full)
      as (l & os & new & Sp & S1 & S2 & S3 & S4 & S5 & S6 & S7 & S8 & S9 & S10 & S11 & S12 & S13).
    rewrite Sp. set (lf := Elem 0 os (txg + 1) None false l).
    assert (C : chain (egood h) 0 None [lf; new]).
    { split; [cbn; lia|]. split; [|split; [cbn; lia|split; [exact S7|exact I]]].
      split; [exact S8|]. split; [cbn; lia|]. split; [exact S11|]. split; [exact I|]. exact S6. }
    assert (F : Forall (tx_in rs (txg + 1)) [lf; new]) by (repeat constructor; cbn; lia).
    destruct (insert_int_spec seq txg k v h 0 None rs [lf; new] C F ltac:(lia) ltac:(discriminate) K I)
      as (cs' & po & X1 & X2 & X3 & X4 & X5 & X6).
    cbn [t_root]. rewrite X1.
    assert (Fl : flats h [lf; new] = flat h rn) by (cbn; rewrite app_nil_r; exact S9).
    rewrite Fl in *.
    eexists _, _. split; [reflexivity|]. cbn [t_root t_h e_node].
    split; [|split; [exact X4|split; [|reflexivity]]].
    + split; [reflexivity|]. split; [apply good_S; split; assumption|]. split; [lia|]. split; [lia|].
      split; [destruct HL as (M1&M2&M3&M4); cbn in X6 |- *; lia|].
      split; [destruct cs'; [cbn in X6; lia|exact I]|exact I].
    + rewrite addrs_elem_Int. cbn [opt_list app]. rewrite <- app_assoc, X5. cbn [flat_map]. unfold addrs_elem. cbn [lf e_ptr e_node].
      rewrite S4, <- S10. cbn [opt_list app]. rewrite app_nil_r. reflexivity.
  - destruct rn as [l|cs].
    + destruct h as [|h]; [|destruct G].
      eexists _, _. split; [reflexivity|]. cbn [t_root t_h e_node flat].
      split; [|split; [reflexivity|split; [|reflexivity]]].
      * split; [reflexivity|]. destruct G as [Z F].
        split. { cbn. split; [now apply zm_ok_set|]. apply Forall_forall. intros p I. apply zm_set_fst in I. destruct I as [->|I]; [cbn; auto|].
                 rewrite Forall_forall in F. now apply F. }
        split; [lia|]. split; [lia|]. split; [|split; exact I].
        cbn in SS, Ln |- *. rewrite zm_set_length by exact Z. destruct (zm_mem k l); [lia|]. apply Nat.leb_gt in SS. lia.
      * unfold addrs_elem. cbn. rewrite !app_nil_r. reflexivity.
    + destruct h as [|h]; [destruct G|]. apply good_S in G1. destruct G1 as [C F].
      assert (cs <> []) by (destruct cs; [destruct N|discriminate]).
      destruct (insert_int_spec seq txg k v h 0 None rs cs C F ltac:(lia) ltac:(assumption) K I)
        as (cs' & po & X1 & X2 & X3 & X4 & X5 & X6).
      rewrite X1. eexists _, _. split; [reflexivity|]. cbn [t_root t_h e_node].
      split; [|split; [exact X4|split; [|reflexivity]]].
      * split; [reflexivity|]. split; [apply good_S; split; assumption|]. split; [lia|]. split; [lia|].
        split; [cbn in SS |- *; apply Nat.leb_gt in SS; lia|].
        split; [destruct cs'; [destruct cs; [congruence|cbn in X6; lia]|exact I]|exact I].
      * rewrite !addrs_elem_Int. cbn [opt_list app]. rewrite <- app_assoc, X5. reflexivity.
Qed.

End Proofs.
