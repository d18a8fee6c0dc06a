(** * The B-tree: range deletion, second pass *)
From Verif Require Import Common ZMap Tree_Model TreeRD_Model Tree_Inv Tree_Proofs Tree_Remove Tree_RD.
From Coq Require Import Permutation.

Section RD2.
Context {V : Type}.
Notation elem := (@elem V).
Notation node := (@node V).
Notation tree := (@tree V).
Context (lim : limits).
Context (HL : lims_ok lim 1 1).
Notation good := (@good V lim 1 1).
Notation egood := (@egood V lim 1 1).
Notation len_ok := (@len_ok V lim 1 1).
Context (txg : Z).

(** the children of a node, changed without changing what is stored *)
Definition same_store (h : nat) lo hi ts (cs cs' : list elem) (po : list addr) : Prop :=
  chain (egood h) lo hi cs' /\ Forall (tx_in ts (txg + 1)) cs' /\ flats h cs' = flats h cs /\
  Permutation (po ++ flat_map (addrs_elem h) cs') (flat_map (addrs_elem h) cs).

Lemma ss_trans h lo hi ts a b c p q : same_store h lo hi ts a b p -> same_store h lo hi ts b c q -> same_store h lo hi ts a c (p ++ q).
Proof.
  intros (_&_&F1&P1) (C2&T2&F2&P2). split; [exact C2|]. split; [exact T2|]. split; [congruence|].
  rewrite <- P1, <- P2, app_assoc. reflexivity.
Qed.
Lemma ss_refl h lo hi ts cs : chain (egood h) lo hi cs -> Forall (tx_in ts (txg + 1)) cs -> same_store h lo hi ts cs cs [].
Proof. intros. split; [assumption|]. split; [assumption|]. split; reflexivity. Qed.

Lemma nth_split_at (cs : list elem) i c : nth_error cs i = Some c -> exists l r, cs = l ++ c :: r /\ length l = i.
Proof. intros H. apply nth_error_split in H. exact H. Qed.

Lemma xlock_at_ss h lo hi ts cs i c : chain (egood h) lo hi cs -> Forall (tx_in ts (txg + 1)) cs -> nth_error cs i = Some c ->
  exists cs' c' po, xlock_at txg cs i = Some (cs', c', po) /\ same_store h lo hi ts cs cs' po /\
    nth_error cs' i = Some c' /\ locked txg c' /\ e_node c' = e_node c /\ length cs' = length cs.
Proof.
  intros C F H. destruct (nth_split_at _ _ _ H) as (l & r & -> & <-).
  destruct (xlock_at_mid lim 1 1 HL txg h lo hi ts l c r C F) as (c' & Hx & C1 & F1 & Lk & Q1 & Q2 & Pe).
  eexists _, _, _. split; [exact Hx|]. split.
  - split; [exact C1|]. split; [exact F1|]. split; [rewrite !flats_app, !flats_cons, Q2; reflexivity|exact Pe].
  - split; [apply nth_error_mid|]. split; [exact Lk|]. split; [exact Q2|]. rewrite !app_length. reflexivity.
Qed.

Lemma fix_any h lo hi ts cs i c : chain (egood h) lo hi cs -> Forall (tx_in ts (txg + 1)) cs -> ts <= txg ->
  nth_error cs i = Some c -> locked txg c -> small lim (e_node c) -> (2 <= length cs)%nat ->
  exists cs' nmb nma po c', fix_int lim txg cs i = Some (cs', nmb, nma, po) /\ (nmb <= i)%nat /\
    (length cs' + nmb + nma = length cs)%nat /\ nth_error cs' (i - nmb) = Some c' /\
    (n_len (e_node c) < n_len (e_node c'))%nat /\ same_store h lo hi ts cs cs' po /\ (nmb <= 1)%nat /\ (nma <= 1)%nat.
Proof.
  intros C F T H Lk Sm L2. destruct (nth_split_at _ _ _ H) as (l & r & -> & <-).
  destruct r as [|y r].
  - destruct l as [|x l] using rev_ind; [cbn in L2; lia|]. clear IHl.
    rewrite <- app_assoc in *. cbn [app] in *.
    destruct (fix_int_left lim 1 1 HL h lo hi ts txg l x c C F T Lk Sm) as (cs' & po & (mb & Mb & Hf & Ln & c' & Hc & G) & (X1&X2&X3&_) & Pe).
    replace (length (l ++ [x])) with (S (length l)) by (rewrite app_length; cbn; lia).
    exists cs', mb, O, po, c'. split; [exact Hf|]. split; [lia|]. split; [lia|]. split; [exact Hc|]. split; [exact G|].
    split; [|lia]. split; [exact X1|]. split; [exact X2|]. split; [exact X3|exact Pe].
  - destruct (fix_int_right lim 1 1 HL h lo hi ts txg l c y r C F T Lk Sm) as (cs' & po & Hf & (X1&X2&X3&_) & Pe & c' & Hc & G).
    destruct Hf as [[Hf Ln]|[Hf Ln]].
    + exists cs', O, O, po, c'. split; [exact Hf|]. split; [lia|]. split; [lia|]. rewrite Nat.sub_0_r. split; [exact Hc|]. split; [exact G|].
      split; [|lia]. split; [exact X1|]. split; [exact X2|]. split; [exact X3|exact Pe].
    + exists cs', O, 1%nat, po, c'. split; [exact Hf|]. split; [lia|]. split; [lia|]. rewrite Nat.sub_0_r. split; [exact Hc|]. split; [exact G|].
      split; [|lia]. split; [exact X1|]. split; [exact X2|]. split; [exact X3|exact Pe].
Qed.

Lemma rd_underflow_small (n : node) common : rd_underflow lim n common = true -> small lim n.
Proof.
  unfold rd_underflow, small, underflow, in_danger, in_extra_danger. destruct n as [l|cs].
  - intros H. apply Nat.ltb_lt in H. lia.
  - destruct common; intros H; apply Nat.leb_le in H; lia.
Qed.

Lemma child_ok h lo hi ts cs i c : chain (egood h) lo hi cs -> Forall (tx_in ts (txg + 1)) cs -> nth_error cs i = Some c ->
  (n_len (e_node c) <= max_int lim + max_leaf lim)%nat /\ len_ok (e_node c) /\ e_ts c < e_te c.
Proof.
  intros C F H. apply nth_error_In in H. destruct (chain_in _ _ _ _ _ C H) as [_ [nx (_&X&L&_)]]. split; [|auto].
  destruct (e_node c); cbn in L |- *; lia.
Qed.

Lemma rd_fix_left_spec h lo hi ts : ts <= txg -> forall fuel common0 left cs mb mm stole c,
  chain (egood h) lo hi cs -> Forall (tx_in ts (txg + 1)) cs -> (mb <= left)%nat ->
  nth_error cs (left - mb) = Some c -> locked txg c ->
  (length cs + (max_int lim + max_leaf lim - n_len (e_node c)) < fuel)%nat ->
  exists cs' mb' mm' po c', rd_fix_left fuel lim txg common0 left cs mb mm stole = Some (cs', mb', mm', po) /\
    (mb <= mb' <= left)%nat /\ (mm <= mm')%nat /\ (length cs' + mb' + mm' = length cs + mb + mm)%nat /\
    nth_error cs' (left - mb') = Some c' /\ locked txg c' /\ same_store h lo hi ts cs cs' po.
Proof.
  intros T. induction fuel as [|fuel IH]; intros common0 left cs mb mm stole c C F Mb H Lk M; [lia|]. cbn [rd_fix_left].
  destruct (Nat.ltb_spec left mb) as [X|_]; [lia|]. rewrite H.
  destruct (negb (rd_underflow lim (e_node c) (common0 || (0 <? mm)%nat || stole)) || (length cs <=? 1)%nat) eqn:E.
  - exists cs, mb, mm, [], c. split; [reflexivity|]. split; [lia|]. split; [lia|]. split; [lia|]. split; [exact H|].
    split; [exact Lk|apply ss_refl; assumption].
  - apply orb_false_iff in E. destruct E as [E1 E2]. apply negb_false_iff in E1. apply Nat.leb_gt in E2.
    destruct (fix_any h lo hi ts cs _ c C F T H Lk (rd_underflow_small _ _ E1) ltac:(lia))
      as (cs1 & nmb & nma & po & c1 & Hf & Nb & Ln & H1 & G & SS & _ & _).
    rewrite Hf. destruct (Nat.ltb_spec (left - mb) nmb) as [X|_]; [lia|].
    assert (C1 := proj1 SS). assert (F1 := proj1 (proj2 SS)).
    destruct (xlock_at_ss h lo hi ts cs1 _ c1 C1 F1 H1) as (cs2 & c2 & po2 & Hx & SS2 & H2 & Lk2 & Q2 & Ln2).
    rewrite Hx.
    assert (C2 := proj1 SS2). assert (F2 := proj1 (proj2 SS2)).
    destruct (child_ok h lo hi ts cs2 _ c2 C2 F2 H2) as [Ub _].
    rewrite <- Nat.sub_add_distr in H2.
    destruct (IH common0 left cs2 (mb + nmb)%nat (mm + nma)%nat (((nma =? 0)%nat && (nmb =? 0)%nat) || stole) c2 C2 F2 ltac:(lia) H2 Lk2)
      as (cs3 & mb' & mm' & po3 & c3 & R & B1 & B2 & B3 & H3 & Lk3 & SS3).
    { rewrite Q2 in *. lia. }
    rewrite R. exists cs3, mb', mm', (po ++ po2 ++ po3), c3. split; [reflexivity|]. split; [lia|]. split; [lia|]. split; [lia|].
    split; [exact H3|]. split; [exact Lk3|]. rewrite app_assoc. eapply ss_trans; [eapply ss_trans; eassumption|exact SS3].
Qed.

Lemma unmark_ss h lo hi ts cs i : chain (egood h) lo hi cs -> Forall (tx_in ts (txg + 1)) cs ->
  same_store h lo hi ts cs (unmark_at cs i) [] /\ length (unmark_at cs i) = length cs.
Proof.
  intros C F. unfold unmark_at. destruct (nth_error cs i) as [c|] eqn:E; [|split; [apply ss_refl; assumption|reflexivity]].
  destruct (nth_split_at _ _ _ E) as (l & r & -> & <-). rewrite put_child_mid.
  destruct (mark_facts c false) as (Q1&Q2&Q3&Q4&Q5). split; [|rewrite !app_length; reflexivity].
  split; [eapply chain_replace; [exact C|exact Q1|apply egood_mark; apply chain_mid in C; apply C]|].
  split; [apply Forall_mid in F; apply Forall_mid; unfold tx_in in *; rewrite Q4, Q5; exact F|].
  split; [rewrite !flats_app, !flats_cons, Q2; reflexivity|]. cbn [app]. rewrite !addrs_mid, addrs_mark. reflexivity.
Qed.

Lemma marked_sorted (cs : list elem) : forall i, Forall (fun j => (i <= j < i + length cs)%nat) (marked cs i) /\
  (forall a b l, marked cs i = a :: b :: l -> (a < b)%nat).
Proof.
  induction cs as [|c cs IH]; intros i; cbn [marked length]; [split; [constructor|discriminate]|].
  destruct (IH (S i)) as [F O].
  assert (F' : Forall (fun j => (S i <= j < i + S (length cs))%nat) (marked cs (S i))) by (eapply Forall_impl; [|exact F]; cbn; intros; lia).
  destruct (e_mark c && is_dirty c).
  - split; [constructor; [lia|]; eapply Forall_impl; [|exact F']; cbn; intros; lia|].
    intros a b l E. injection E as <- E. rewrite E in F'. inversion F'; subst. lia.
  - split; [eapply Forall_impl; [|exact F']; cbn; intros; lia|exact O].
Qed.

Definition p2_post (h : nat) (lo : Z) (hi : option Z) (ts : Z) (n : node) (res : option (node * list addr)) : Prop :=
  exists n' popped, res = Some (n', popped) /\
    good h lo hi ts (txg + 1) n' /\ flat h n' = flat h n /\
    Permutation (popped ++ addrs_below h n') (addrs_below h n) /\ same_kind n n' /\ (n_len n' <= n_len n)%nat /\
    ((1 <= n_len n)%nat -> (1 <= n_len n')%nat).

(** replacing the node of a locked child *)
Lemma set_child h lo hi ts cs i c (rec : node -> option (node * list addr)) :
  chain (egood h) lo hi cs -> Forall (tx_in ts (txg + 1)) cs -> nth_error cs i = Some c -> locked txg c ->
  (forall lo hi ts n, good h lo hi ts (txg + 1) n -> ts <= txg -> p2_post h lo hi ts n (rec n)) ->
  exists nc po, rec (e_node c) = Some (nc, po) /\ same_store h lo hi ts cs (put_child cs i (set_node c nc)) po /\
    length (put_child cs i (set_node c nc)) = length cs.
Proof.
  intros C F H [Lp Lt] IH. destruct (nth_split_at _ _ _ H) as (l & r & -> & <-).
  assert (C' := C). apply chain_mid in C'. destruct C' as (_&_&(E1&E2&E3&E4&E5)&_). rewrite Lt in E2, E5.
  destruct (IH _ _ _ _ E5 ltac:(lia)) as (nc & po & R & G & Fl & Pe & SK & L1 & L2).
  exists nc, po. split; [exact R|]. rewrite put_child_mid. split; [|rewrite !app_length; reflexivity].
  destruct c as [k s t p m n]. cbn [set_node e_key e_ts e_te e_ptr e_node] in *. subst p t.
  split.
  - eapply chain_replace; [exact C|reflexivity|]. split; [exact E1|]. split; [exact E2|].
    split; [|split; [exact I|exact G]]. cbn [e_node]. destruct n, nc; cbn in SK, E3, L1, L2 |- *; try tauto; lia.
  - split; [apply Forall_mid in F; apply Forall_mid; exact F|].
    split; [rewrite !flats_app, !flats_cons; cbn [e_node]; rewrite Fl; reflexivity|].
    rewrite !addrs_mid, !addrs_e. cbn [e_ptr e_node opt_list app]. rewrite <- Pe, <- !app_assoc. apply Permutation_app_swap_app.
Qed.

Lemma rd_pass2_r_spec h : forall lo hi ts n, good h lo hi ts (txg + 1) n -> ts <= txg -> p2_post h lo hi ts n (rd_pass2_r lim txg h n).
Proof.
  induction h as [|h IH]; intros lo hi ts n G T; destruct n as [l|cs]; try (cbn in G; tauto).
  - exists (Leaf l), []. split; [reflexivity|]. split; [exact G|]. split; [reflexivity|]. split; [reflexivity|]. split; [exact I|]. auto.
  - assert (G0 := G). apply good_S in G. destruct G as [C F]. cbn [rd_pass2_r].
    destruct (to_fix cs) as [|lidx rest] eqn:TF.
    { exists (Int cs), []. split; [reflexivity|]. split; [exact G0|]. split; [reflexivity|]. split; [reflexivity|]. split; [exact I|]. auto. }
    assert (Idx : (lidx < length cs)%nat /\ match rest with r :: _ => (lidx < r < length cs)%nat | [] => True end).
    { unfold to_fix in TF. destruct (marked_sorted cs 0) as [FM OM]. destruct (marked cs 0) as [|a [|b m]]; cbn in TF; [discriminate| |].
      - injection TF as -> <-. inversion FM; subst. split; [lia|exact I].
      - injection TF as -> <-. inversion FM as [|? ? X1 X2]; subst. inversion X2; subst. specialize (OM _ _ _ eq_refl). lia. }
    destruct Idx as [I1 I2].
    set (right := match rest with r :: _ => Some r | [] => None end).
    set (cs0 := match right with Some r => unmark_at (unmark_at cs lidx) r | None => unmark_at cs lidx end).
    assert (S0 : same_store h lo hi ts cs cs0 [] /\ length cs0 = length cs).
    { destruct (unmark_ss h lo hi ts cs lidx C F) as [Sa La]. unfold cs0. destruct right as [r|]; [|split; assumption].
      destruct (unmark_ss h lo hi ts (unmark_at cs lidx) r (proj1 Sa) (proj1 (proj2 Sa))) as [Sb Lb].
      split; [change (@nil addr) with ((@nil addr) ++ []); eapply ss_trans; eassumption|congruence]. }
    destruct S0 as [S0 L0]. clearbody cs0.
    destruct (nth_error cs0 lidx) as [c0|] eqn:H0; [|apply nth_error_None in H0; lia].
    destruct (xlock_at_ss h lo hi ts cs0 lidx c0 (proj1 S0) (proj1 (proj2 S0)) H0) as (cs1 & c1 & p1 & Hx & S1 & H1 & Lk1 & Q1 & L1).
    rewrite Hx.
    destruct (rd_fix_left_spec h lo hi ts T (length cs + max_int lim + max_leaf lim + 2) (match right with None => true | Some _ => false end)
                lidx cs1 0 0 false c1 (proj1 S1) (proj1 (proj2 S1)) ltac:(lia)) as (cs2 & mb & mm & p2 & c2 & R2 & B1 & B2 & L2 & H2 & Lk2 & S2).
    { rewrite Nat.sub_0_r. exact H1. }
    { exact Lk1. }
    { lia. }
    rewrite R2, H2.
    destruct (set_child h lo hi ts cs2 _ c2 (rd_pass2_r lim txg h) (proj1 S2) (proj1 (proj2 S2)) H2 Lk2 IH) as (nc & p3 & R3 & S3 & L3).
    rewrite R3. set (cs3 := put_child cs2 (lidx - mb) (set_node c2 nc)) in *. clearbody cs3.
    assert (Acc : same_store h lo hi ts cs cs3 (p1 ++ p2 ++ p3)).
    { pose proof (ss_trans _ _ _ _ _ _ _ _ _ S0 S1) as A1. pose proof (ss_trans _ _ _ _ _ _ _ _ _ A1 S2) as A2.
      pose proof (ss_trans _ _ _ _ _ _ _ _ _ A2 S3) as A3. rewrite <- !app_assoc in A3. exact A3. }
    assert (N3 : (1 <= length cs3)%nat) by (rewrite L3; enough (lidx - mb < length cs2)%nat by lia; apply nth_error_Some; congruence).
    assert (Fin : forall cs' po, same_store h lo hi ts cs cs' po -> (1 <= length cs' <= length cs)%nat ->
       p2_post (S h) lo hi ts (Int cs) (Some (Int cs', po))).
    { intros cs' po (X1&X2&X3&X4) X5. exists (Int cs'), po. split; [reflexivity|]. split; [apply good_S; split; assumption|].
      rewrite !flat_Int, !addrs_Int. split; [exact X3|]. split; [exact X4|]. split; [exact I|]. cbn [n_len]. lia. }
    destruct right as [r|] eqn:Er; [|apply Fin; [exact Acc|lia]].
    destruct (Nat.eqb_spec mm 0) as [Em|Em]; [|apply Fin; [exact Acc|lia]].
    assert (Ir : (lidx < r < length cs)%nat) by (destruct rest; [discriminate Er|]; injection Er as <-; exact I2).
    destruct (Nat.ltb_spec r mb) as [X|_]; [lia|].
    destruct (nth_error cs3 (r - mb)) as [r0|] eqn:H3; [|apply nth_error_None in H3; lia].
    destruct (xlock_at_ss h lo hi ts cs3 _ r0 (proj1 Acc) (proj1 (proj2 Acc)) H3) as (cs4 & rc & p4 & Hx4 & S4 & H4 & Lk4 & Q4 & L4).
    rewrite Hx4.
    pose proof (ss_trans _ _ _ _ _ _ _ _ _ Acc S4) as Acc4.
    assert (FX : exists cs6 j' rc' p5,
      (if rd_underflow lim (e_node rc) false then
         match fix_int lim txg cs4 (r - mb) with
         | None => None
         | Some (cs5, nmb, _, p5) =>
             if (r - mb <? nmb)%nat then None else
             match xlock_at txg cs5 (r - mb - nmb) with
             | None => None
             | Some (cs6, rc', p6) => Some (cs6, (r - mb - nmb)%nat, rc', p5 ++ p6)
             end
         end
       else Some (cs4, (r - mb)%nat, rc, [])) = Some (cs6, j', rc', p5) /\
      same_store h lo hi ts cs cs6 ((p1 ++ p2 ++ p3) ++ p4 ++ p5) /\ nth_error cs6 j' = Some rc' /\ locked txg rc' /\ (1 <= length cs6 <= length cs)%nat).
    { destruct (rd_underflow lim (e_node rc) false) eqn:U.
      - destruct (fix_any h lo hi ts cs4 _ rc (proj1 Acc4) (proj1 (proj2 Acc4)) T H4 Lk4 (rd_underflow_small _ _ U) ltac:(lia))
          as (cs5 & nmb & nma & p5 & c5 & Hf & Nb & L5 & H5 & _ & S5 & M1 & M2).
        rewrite Hf. destruct (Nat.ltb_spec (r - mb) nmb) as [X|_]; [lia|].
        destruct (xlock_at_ss h lo hi ts cs5 _ c5 (proj1 S5) (proj1 (proj2 S5)) H5) as (cs6 & rc' & p6 & Hx6 & S6 & H6 & Lk6 & Q6 & L6).
        rewrite Hx6. eexists _, _, _, _. split; [reflexivity|].
        assert (Pos6 : (0 < length cs6)%nat) by (destruct cs6; [destruct (r - mb - nmb)%nat; discriminate H6|cbn; lia]).
        split; [|split; [exact H6|split; [exact Lk6|lia]]].
        pose proof (ss_trans _ _ _ _ _ _ _ _ _ Acc4 (ss_trans _ _ _ _ _ _ _ _ _ S5 S6)) as A. rewrite <- !app_assoc in *. exact A.
      - eexists _, _, _, _. split; [reflexivity|]. rewrite app_nil_r. split; [exact Acc4|]. split; [exact H4|]. split; [exact Lk4|lia]. }
    destruct FX as (cs6 & j' & rc' & p5 & -> & A6 & H6 & Lk6 & L6).
    destruct (set_child h lo hi ts cs6 _ rc' (rd_pass2_r lim txg h) (proj1 A6) (proj1 (proj2 A6)) H6 Lk6 IH) as (nr & p6 & R6 & S6 & L7).
    rewrite R6. apply Fin; [|lia].
    pose proof (ss_trans _ _ _ _ _ _ _ _ _ A6 S6) as A. rewrite <- !app_assoc in A. exact A.
Qed.

(** ** The root *)

(** as [tgood], but the root may have no children *)
Definition lgood (T : Z) (t : tree) : Prop :=
  let 'Elem rk rs rt rp _ rn := t_root t in
  rk = 0 /\ good (t_h t) 0 None rs rt rn /\ rs <= rt <= T + 1 /\ rs <= T /\ (n_len rn <= n_max lim rn)%nat /\ rp = None.

Lemma merge_root_down_spec : forall fuel t, lgood txg t -> 0 <= txg -> (t_h t < fuel)%nat ->
  exists t' popped, merge_root_down fuel txg t = Some (t', popped) /\ tgood lim 1 1 txg t' /\
    contents t' = contents t /\ Permutation (popped ++ all_addrs t') (all_addrs t) /\
    two (e_node (t_root t')) /\ e_ptr (t_root t') = None /\ e_te (t_root t') = txg + 1 /\ (t_h t' <= t_h t)%nat.
Proof.
  induction fuel as [|fuel IH]; intros t G T0 L; [lia|]. cbn [merge_root_down]. unfold xlock_and_merge_root.
  unfold lgood, contents, all_addrs in *. destruct t as [[rk rs rt rp rm rn] h]. cbn [t_root t_h] in *.
  destruct G as (-> & G & T1 & T2 & Ln & ->). cbn [xlock_root e_node].
  assert (G1 : good h 0 None rs (txg + 1) rn) by (eapply good_weaken; [exact G|lia|exact I|lia|lia]).
  destruct rn as [l|[|c [|d cs]]].
  - eexists _, _. split; [reflexivity|]. cbn [t_root t_h e_node e_ptr e_te]. unfold tgood. cbn [t_root t_h].
    split; [split; [reflexivity|]; split; [exact G1|]; split; [lia|]; split; [lia|]; split; [exact Ln|]; split; exact I|].
    split; [reflexivity|]. split; [reflexivity|]. split; [exact I|]. auto.
  - destruct h; [destruct G|]. cbn [default_elem xlock_root e_node t_root app]. eexists _, _. split; [reflexivity|].
    cbn [t_root t_h e_node e_ptr e_te]. unfold tgood. cbn [t_root t_h].
    split; [|split; [reflexivity|split; [reflexivity|split; [exact I|split; [reflexivity|split; [reflexivity|lia]]]]]].
    split; [reflexivity|]. split; [split; [apply zm_ok_nil|constructor]|]. split; [lia|]. split; [lia|]. split; [cbn; lia|]. split; exact I.
  - destruct h as [|h]; [destruct G|]. apply good_S in G1. destruct G1 as [(C1 & (E1&E2&E3&E4&E5) & _) F].
    inversion F as [|? ? [F1 F2] _]; subst. destruct c as [ck cs0 ct cp cm cn]. cbn [set_key xlock_root].
    cbn [e_key e_ts e_te e_node nextkey t_root] in *.
    assert (G2 : good h 0 None cs0 (txg + 1) cn) by (eapply good_weaken; [exact E5|lia|exact I|lia|lia]).
    set (t1 := Tree (Elem 0 cs0 (txg + 1) None cm cn) h).
    assert (LG : lgood txg t1).
    { cbn. split; [reflexivity|]. split; [exact G2|]. split; [lia|]. split; [lia|]. split; [destruct cn; cbn in E3 |- *; lia|reflexivity]. }
    assert (Pe : Permutation (([] ++ match cp with None => [] | Some a => [a] end) ++ addrs_elem h (t_root t1)) (addrs_elem (S h) (Elem 0 rs rt None rm (Int [Elem ck cs0 ct cp cm cn])))).
    { cbn [t1 t_root app]. rewrite addrs_elem_Int. cbn [flat_map]. rewrite !addrs_e. cbn [e_ptr e_node opt_list app].
      rewrite app_nil_r. destruct cp; reflexivity. }
    assert (Fl : flat h cn = flat (S h) (Int [Elem ck cs0 ct cp cm cn])) by (cbn; now rewrite app_nil_r).
    assert (Done : two cn -> exists t' popped, Some (t1, [] ++ match cp with None => [] | Some a => [a] end) = Some (t', popped) /\ tgood lim 1 1 txg t' /\
      flat (t_h t') (e_node (t_root t')) = flat (S h) (Int [Elem ck cs0 ct cp cm cn]) /\
      Permutation (popped ++ addrs_elem (t_h t') (t_root t')) (addrs_elem (S h) (Elem 0 rs rt None rm (Int [Elem ck cs0 ct cp cm cn]))) /\
      two (e_node (t_root t')) /\ e_ptr (t_root t') = None /\ e_te (t_root t') = txg + 1 /\ (t_h t' <= S h)%nat).
    { intros Tw. eexists _, _. split; [reflexivity|]. split.
      - unfold tgood. cbn. split; [reflexivity|]. split; [exact G2|]. split; [lia|]. split; [lia|].
        split; [destruct cn; cbn in E3 |- *; lia|]. split; [|exact I]. destruct cn as [|[|]]; cbn in Tw |- *; try exact I. lia.
      - split; [exact Fl|]. split; [exact Pe|]. split; [exact Tw|]. split; [reflexivity|]. split; [reflexivity|cbn; lia]. }
    destruct cn as [l|cs] eqn:Ecn; [apply Done; exact I|].
    destruct (Nat.ltb_spec 1 (length cs)) as [Lc|Lc]; [apply Done; cbn; lia|].
    destruct (IH t1 LG T0 ltac:(cbn; lia)) as (t2 & p2 & R & X1 & X2 & X3 & X4 & X5 & X6 & X7).
    unfold contents, all_addrs in *. fold t1. rewrite R. eexists _, _. split; [reflexivity|]. split; [exact X1|].
    split; [rewrite X2; exact Fl|]. split; [|split; [exact X4|split; [exact X5|split; [exact X6|cbn in X7; lia]]]].
    change (t_h t1) with h in X3. rewrite <- Pe, <- X3, <- !app_assoc. reflexivity.
  - cbn [length]. destruct (Nat.ltb_spec 1 (S (S (length cs)))) as [_|X]; [|lia].
    eexists _, _. split; [reflexivity|]. cbn [t_root t_h e_node e_ptr e_te]. unfold tgood. cbn [t_root t_h].
    split; [split; [reflexivity|]; split; [exact G1|]; split; [lia|]; split; [lia|]; split; [exact Ln|]; split; exact I|].
    split; [reflexivity|]. split; [reflexivity|]. split; [cbn; lia|]. auto.
Qed.

Lemma clear_marks_spec h : forall lo hi ts te n, good h lo hi ts te n ->
  good h lo hi ts te (clear_marks h n) /\ flat h (clear_marks h n) = flat h n /\
  addrs_below h (clear_marks h n) = addrs_below h n /\ n_len (clear_marks h n) = n_len n /\ same_kind n (clear_marks h n) /\
  (clean h n -> clean h (clear_marks h n)).
Proof.
  induction h as [|h IH]; intros lo hi ts te n G; destruct n as [l|cs]; try (cbn in G; tauto).
  - cbn [clear_marks]. split; [exact G|]. split; [reflexivity|]. split; [reflexivity|]. split; [reflexivity|]. split; [exact I|auto].
  - cbn [clear_marks]. set (f := fun e : elem => set_mark (set_node e (clear_marks h (e_node e))) false).
    apply good_S in G. destruct G as [C F].
    assert (K : forall e : elem, e_key (f e) = e_key e /\ e_ts (f e) = e_ts e /\ e_te (f e) = e_te e /\ e_ptr (f e) = e_ptr e /\
       e_node (f e) = clear_marks h (e_node e)) by (intros [k s t p m n]; cbn; auto).
    assert (NK : forall r, nextkey hi (map f r) = nextkey hi r) by (intros [|e r]; cbn [map nextkey]; [reflexivity|]; f_equal; apply K).
    clearbody f.
    assert (Ch : chain (egood h) lo hi (map f cs)).
    { clear F. revert lo C. induction cs as [|e r IHr]; intros lo C; [exact I|]. cbn [map chain].
      destruct C as (X & (E1&E2&E3&E4&E5) & Y). destruct (K e) as (K1&K2&K3&K4&K5). rewrite NK.
      destruct (IH _ _ _ _ _ E5) as (Q1&Q2&Q3&Q4&Q5&Q6).
      split; [lia|]. split; [|rewrite K1; apply IHr; exact Y].
      unfold egood, ptr_ok. rewrite K1, K2, K3, K4, K5. split; [exact E1|]. split; [exact E2|].
      split; [destruct (e_node e), (clear_marks h _); cbn in Q4, Q5, E3 |- *; try tauto; lia|].
      split; [|exact Q1]. unfold ptr_ok in E4. destruct (e_ptr e); [|exact I]. split; [apply E4|apply Q6, E4]. }
    split; [apply good_S; split; [exact Ch|]|].
    { apply Forall_forall. intros x I. apply in_map_iff in I. destruct I as (y & <- & I). rewrite Forall_forall in F.
      specialize (F y I). destruct (K y) as (_&K2&K3&_). unfold tx_in in *. rewrite K2, K3. exact F. }
    rewrite !flat_Int, !addrs_Int.
    assert (Gs : forall e : elem, In e cs -> exists lo hi ts te, good h lo hi ts te (e_node e)).
    { intros e I. destruct (chain_in _ _ _ _ _ C I) as [_ [nx (_&_&_&_&X)]]. eauto. }
    split; [|split; [|split; [|split]]].
    + clear - Gs K IH. induction cs as [|e r IHr]; [reflexivity|]. cbn [map]. rewrite !flats_cons. f_equal; [|apply IHr; intros; apply Gs; now right].
      destruct (Gs e (or_introl eq_refl)) as (?&?&?&?&G). destruct (K e) as (_&_&_&_&->). eapply IH; eauto.
    + clear - Gs K IH. induction cs as [|e r IHr]; [reflexivity|]. cbn [map flat_map]. f_equal; [|apply IHr; intros; apply Gs; now right].
      destruct (Gs e (or_introl eq_refl)) as (?&?&?&?&G). destruct (K e) as (_&_&_&K4&K5). rewrite !addrs_e, K4, K5. f_equal. eapply IH; eauto.
    + cbn [n_len]. apply map_length.
    + exact I.
    + cbn [clean]. intros Fc. apply Forall_forall. intros x I. apply in_map_iff in I. destruct I as (y & <- & I).
      rewrite Forall_forall in Fc. specialize (Fc y I). destruct (K y) as (_&_&_&K4&K5). rewrite K4, K5. split; [apply Fc|].
      destruct (Gs y I) as (?&?&?&?&G). eapply IH; [exact G|apply Fc].
Qed.

End RD2.

Section RDT.
Context {V : Type}.
Notation tree := (@tree V).
Context (lim : limits).
Context (HL : lims_ok lim 1 1).

Theorem range_delete_spec T txg (t : tree) s e : tgood lim 1 1 T t -> T <= txg -> 0 <= txg -> proper_range s e ->
  exists t' popped, range_delete lim txg s e t = Some (t', popped) /\
    tgood lim 1 1 txg t' /\ contents t' = D s e (contents t) /\
    Permutation (popped ++ all_addrs t') (all_addrs t) /\ e_ptr (t_root t') = None /\ two (e_node (t_root t')).
Proof.
  intros G L T0 PR. unfold range_delete. rewrite (proj2 (proper_no_panic _ _ PR)).
  unfold tgood, contents, all_addrs in G |- *. destruct t as [[rk rs rt rp rm rn] h]. cbn [t_root t_h xlock_root e_node] in *.
  destruct G as (-> & G & T1 & T2 & Ln & N & Pt).
  assert (G1 : good lim 1 1 h 0 None rs (txg + 1) rn) by (eapply good_weaken; [exact G|lia|exact I|lia|lia]).
  destruct (rd_pass1_spec lim HL txg s e PR h 0 None rs rn G1 ltac:(lia) N) as (n1 & d1 & p1 & R1 & X1 & X2 & X3 & X4 & X5).
  rewrite R1. cbn [set_node].
  set (t1 := Tree (Elem 0 rs (txg + 1) None rm n1) h).
  assert (LG : lgood lim txg t1).
  { cbn. split; [reflexivity|]. split; [exact X1|]. split; [lia|]. split; [lia|]. split; [|reflexivity].
    destruct (same_kind_len lim _ _ X4). lia. }
  destruct (merge_root_down_spec lim txg (S (S h)) t1 LG T0 ltac:(cbn; lia)) as (t2 & p2 & R2 & Y1 & Y2 & Y3 & Y4 & Y5 & Y6 & Y7).
  rewrite R2. unfold tgood, contents, all_addrs in *. destruct t2 as [[k2 s2 e2 q2 m2 n2] h2]. cbn [t_root t_h e_node e_ptr e_te] in *. subst q2 e2.
  destruct Y1 as (-> & G2 & T3 & T4 & Ln2 & N2 & _).
  destruct (rd_pass2_r_spec lim HL txg h2 0 None s2 n2 G2 T4) as (n3 & p3 & R3 & Z1 & Z2 & Z3 & Z4 & Z5 & Z6).
  rewrite R3. cbn [set_node]. set (t3 := Tree (Elem 0 s2 (txg + 1) None m2 n3) h2).
  assert (LG3 : lgood lim txg t3).
  { cbn. split; [reflexivity|]. split; [exact Z1|]. split; [lia|]. split; [lia|]. split; [|reflexivity].
    destruct (same_kind_len lim _ _ Z4). lia. }
  destruct (merge_root_down_spec lim txg (S (S h2)) t3 LG3 T0 ltac:(cbn; lia)) as (t4 & p4 & R4 & W1 & W2 & W3 & W4 & W5 & W6 & W7).
  rewrite R4. unfold tgood, contents, all_addrs in *. destruct t4 as [[k4 s4 e4 q4 m4 n4] h4]. cbn [t_root t_h e_node e_ptr e_te set_node set_mark] in *. subst q4 e4.
  destruct W1 as (-> & G4 & T5 & T6 & Ln4 & N4 & _).
  destruct (clear_marks_spec lim h4 _ _ _ _ _ G4) as (U1&U2&U3&U4&U5&_).
  eexists _, _. split; [reflexivity|]. cbn [t_root t_h e_node e_ptr e_te].
  split; [|split; [|split; [|split; [reflexivity|]]]].
  - split; [reflexivity|]. split; [exact U1|]. split; [lia|]. split; [lia|].
    split; [destruct (same_kind_len lim _ _ U5); lia|]. split; [|exact I].
    destruct n4 as [|[|]], (clear_marks h4 _) as [|[|]]; cbn in *; try tauto; try discriminate.
  - rewrite U2, W2. cbn [t3 t_h t_root e_node]. rewrite Z2, Y2. cbn [t1 t_h t_root e_node]. exact X2.
  - rewrite !addrs_e in *. cbn [e_ptr e_node opt_list app t1 t3 t_root t_h] in *. rewrite U3, <- X3, <- Y3, <- Z3, <- W3.
    rewrite <- !app_assoc. destruct rp; reflexivity.
  - destruct n4, (clear_marks h4 _); cbn in *; try tauto. lia.
Qed.

End RDT.
