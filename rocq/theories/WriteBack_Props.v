(** C21, C22: writeback credit. *)
From Verif Require Import Common WriteBack_Model.

(** Credit in users' hands (or on its way to them, or lost with a dropped future). *)
Definition granted (p : pc) : Z :=
  match p with Hold c => c | Woken w => w | Leaked w => w | A3 w => w | _ => 0 end.
(** Credit taken from the supply for the moment only. *)
Definition pledged (p : pc) : Z :=
  match p with B2 w _ | B3 w _ | A2 w | A4 w => w | _ => 0 end.
Definition sum (f : pc -> Z) (l : list pc) : Z := fold_right (fun p s => f p + s) 0 l.
(** Bytes times two that can be borrowed now. *)
Definition avail (s : st) : Z := supply s - supply s mod 2.

(** The amounts in a pc. *)
Definition amt (p : pc) : Z :=
  match p with
  | B1 w | B2 w _ | B3 w _ | B4 w | Sleep w | Gone w | Woken w | Leaked w | Hold w | A2 w | A3 w | A4 w => w
  | _ => 0
  end.
Definition locked (p : pc) : bool :=
  match p with B3 _ _ | B4 _ | A1 | A2 _ | A3 _ | A4 _ => true | _ => false end.

Lemma bits_clear_spec x : bits_clear x = x - x mod 2.
Proof.
  unfold bits_clear. change 1 with (Z.ones 1). rewrite <- Z.ldiff_land, Z.ldiff_ones_r by lia.
  rewrite Z.shiftr_div_pow2, Z.shiftl_mul_pow2 by lia. change (2 ^ 1) with 2. pose proof (Z.div_mod x 2). lia.
Qed.
Lemma flag_spec x : flag x = (x mod 2 =? 1).
Proof. unfold flag. change 1 with (Z.ones 1) at 1. rewrite Z.land_ones by lia. reflexivity. Qed.
Lemma bits_set_spec x : bits_set x = x - x mod 2 + 1.
Proof.
  unfold bits_set. pose proof (Z.div_mod x 2 ltac:(lia)) as Hd. pose proof (Z.mod_pos_bound x 2 ltac:(lia)) as Hm.
  assert (E : Z.lor (Z.shiftl (x / 2) 1) (x mod 2) = x) by (rewrite lor_add by lia; lia).
  rewrite <- E at 1. rewrite <- Z.lor_assoc.
  assert (E1 : Z.lor (x mod 2) 1 = 1) by (assert (H : x mod 2 = 0 \/ x mod 2 = 1) by lia; destruct H as [-> | ->]; reflexivity).
  rewrite E1, lor_add by lia. lia.
Qed.

Lemma mod2_shift x w : w mod 2 = 0 -> (x + w) mod 2 = x mod 2.
Proof. intros H. rewrite Z.add_mod, H, Z.add_0_r, Z.mod_mod by lia. reflexivity. Qed.
Lemma mod2_opp w : w mod 2 = 0 -> (- w) mod 2 = 0.
Proof. intros H. apply Z.mod_opp_l_z; lia. Qed.

Lemma sum_upd f l t p : (t < length l)%nat -> sum f (list_upd l t p) = sum f l - f (nth t l Idle) + f p.
Proof.
  revert t. induction l as [|q l IH]; intros [|t] H; cbn [length list_upd nth sum fold_right] in *; try lia.
  unfold sum in IH. rewrite IH by lia. lia.
Qed.

Lemma list_upd_oob {A} (l : list A) t p : (length l <= t)%nat -> list_upd l t p = l.
Proof. revert t. induction l as [|q l IH]; intros [|t] H; cbn in *; try reflexivity; [lia|]. f_equal. apply IH. lia. Qed.

Definition ok_pc (p : pc) : Prop := 0 <= amt p /\ amt p mod 2 = 0.

Record inv (s : st) : Prop := Inv
  { i_sum : avail s + sum granted (th s) + sum pledged (th s) = cap s;
    i_amt : forall t, ok_pc (pc_of s t);
    i_lock : forall t, locked (pc_of s t) = true -> lock s = Some t;
    i_slp : forall t w, In (t, w) (sleepers s) -> (t < length (th s))%nat /\ (pc_of s t = Sleep w \/ pc_of s t = Gone w);
    i_nd : NoDup (map fst (sleepers s));
    i_a3 : forall t w, pc_of s t = A3 w -> exists t' rest, sleepers s = (t', w) :: rest;
    i_le : sum granted (th s) <= cap s;
    i_panic : forall t, pc_of s t <> Panicked;
    i_cap : 0 <= cap s }.

Lemma pc_goto_eq s t p : (t < length (th s))%nat -> pc_of (goto s t p) t = p.
Proof. intros. unfold pc_of, goto. cbn [th]. now apply nth_list_upd_eq. Qed.
Lemma pc_goto_neq s t t' p : t' <> t -> pc_of (goto s t p) t' = pc_of s t'.
Proof. intros. unfold pc_of, goto. cbn [th]. apply nth_list_upd_neq. congruence. Qed.

Lemma pc_nonidle_lt s t : pc_of s t <> Idle -> (t < length (th s))%nat.
Proof. intros H. unfold pc_of in H. destruct (Nat.lt_ge_cases t (length (th s))); [assumption|]. rewrite nth_overflow in H by assumption. contradiction. Qed.

Lemma sum_nonneg f l : (forall t, 0 <= f (nth t l Idle)) -> 0 <= sum f l.
Proof.
  induction l as [|p l IH]; intros H; cbn [sum fold_right]; [lia|].
  pose proof (H O). cbn in H0. assert (0 <= sum f l). { apply IH. intros t. apply (H (S t)). } unfold sum in *. lia.
Qed.

Lemma inv_pledged_nonneg s : (forall t, ok_pc (pc_of s t)) -> 0 <= sum pledged (th s).
Proof. intros H. apply sum_nonneg. intros t. specialize (H t). unfold pc_of in H. destruct H. destruct (nth t (th s) Idle); cbn in *; lia. Qed.

(** Changing one thread's pc, the supply, the lock and the sleepers at once. *)
Lemma inv_change s t p sup slp lk :
  inv s -> (t < length (th s))%nat ->
  ok_pc p -> p <> Panicked ->
  (sup - sup mod 2) + granted p + pledged p = avail s + granted (pc_of s t) + pledged (pc_of s t) ->
  (granted p <= granted (pc_of s t) \/ 0 <= sup - sup mod 2) ->
  (* lock *)
  (locked p = true -> lk = Some t) ->
  (lk = lock s \/ lock s = None \/ lock s = Some t) ->
  (* sleepers *)
  (forall t' w, In (t', w) slp -> (t' < length (th s))%nat /\
      (t' <> t -> pc_of s t' = Sleep w \/ pc_of s t' = Gone w) /\ (t' = t -> p = Sleep w \/ p = Gone w)) ->
  NoDup (map fst slp) ->
  (forall w, p = A3 w -> exists t' rest, slp = (t', w) :: rest) ->
  (slp = sleepers s \/ lock s = Some t) ->
  inv (St (cap s) sup slp lk (list_upd (th s) t p)).
Proof.
  intros [Hsum Hamt Hlock Hslp Hnd Ha3 Hle Hpan Hcap] Ht Hp Hpp Hs Hg Hl1 Hl2 Hq Hqnd Hqa Hqs.
  assert (Hamt' : forall t', ok_pc (nth t' (list_upd (th s) t p) Idle)).
  { intros t'. destruct (Nat.eq_dec t' t) as [->|Hne]; [now rewrite nth_list_upd_eq|].
    rewrite nth_list_upd_neq by congruence. apply Hamt. }
  assert (Hsum' : (sup - sup mod 2) + sum granted (list_upd (th s) t p) + sum pledged (list_upd (th s) t p) = cap s).
  { rewrite !sum_upd by exact Ht. unfold pc_of in Hs. lia. }
  constructor; unfold avail, pc_of; cbn [cap supply sleepers lock th].
  - exact Hsum'.
  - exact Hamt'.
  - intros t' H. destruct (Nat.eq_dec t' t) as [->|Hne].
    + rewrite nth_list_upd_eq in H by exact Ht. auto.
    + rewrite nth_list_upd_neq in H by congruence. specialize (Hlock t' H).
      destruct Hl2 as [->|[E|E]]; [exact Hlock|congruence|congruence].
  - intros t' w H. rewrite list_upd_length. destruct (Hq t' w H) as (H1 & H2 & H3). split; [exact H1|].
    destruct (Nat.eq_dec t' t) as [->|Hne]; [rewrite nth_list_upd_eq by exact Ht; auto|].
    rewrite nth_list_upd_neq by congruence. auto.
  - exact Hqnd.
  - intros t' w H. destruct (Nat.eq_dec t' t) as [->|Hne].
    + rewrite nth_list_upd_eq in H by exact Ht. auto.
    + rewrite nth_list_upd_neq in H by congruence. destruct Hqs as [->|E]; [exact (Ha3 t' w H)|].
      assert (lock s = Some t') by (apply Hlock; unfold pc_of; now rewrite H). congruence.
  - destruct Hg as [Hg|Hg].
    + rewrite sum_upd by exact Ht. unfold pc_of in Hg. lia.
    + assert (0 <= sum pledged (list_upd (th s) t p)); [|lia].
      apply sum_nonneg. intros t'. specialize (Hamt' t'). destruct Hamt'. destruct (nth t' (list_upd (th s) t p) Idle); cbn in *; lia.
  - intros t'. destruct (Nat.eq_dec t' t) as [->|Hne]; [rewrite nth_list_upd_eq by exact Ht; exact Hpp|].
    rewrite nth_list_upd_neq by congruence. apply Hpan.
  - exact Hcap.
Qed.

(** The ordinary case: the sleepers do not change and [t] was not asleep. *)
Lemma inv_change' s t p sup lk :
  inv s -> (t < length (th s))%nat ->
  (forall w, pc_of s t <> Sleep w /\ pc_of s t <> Gone w) ->
  ok_pc p -> p <> Panicked ->
  (sup - sup mod 2) + granted p + pledged p = avail s + granted (pc_of s t) + pledged (pc_of s t) ->
  (granted p <= granted (pc_of s t) \/ 0 <= sup - sup mod 2) ->
  (locked p = true -> lk = Some t) ->
  (lk = lock s \/ lock s = None \/ lock s = Some t) ->
  (forall w, p = A3 w -> exists t' rest, sleepers s = (t', w) :: rest) ->
  inv (St (cap s) sup (sleepers s) lk (list_upd (th s) t p)).
Proof.
  intros Hi Ht Hns Hp Hpp Hs Hg Hl1 Hl2 Ha. pose proof Hi as [Hsum Hamt Hlock Hslp Hnd Ha3 Hle Hpan Hcap].
  apply inv_change; auto. intros t' w H. destruct (Hslp t' w H) as [H1 H2]. split; [exact H1|]. split; [auto|].
  intros ->. exfalso. destruct (Hns w). destruct H2; contradiction.
Qed.

Lemma avail_ev x w : w mod 2 = 0 -> (x + w) - (x + w) mod 2 = x - x mod 2 + w.
Proof. intros H. rewrite mod2_shift by exact H. lia. Qed.

Ltac notasleep E := intros ?w0; rewrite E; split; discriminate.

Lemma inv_adv s t : inv s -> inv (adv s t).
Proof.
  intros Hi. pose proof Hi as [Hsum Hamt Hlock Hslp Hnd Ha3 Hle Hpan Hcap].
  unfold adv. destruct (pc_of s t) eqn:E; try exact Hi;
    (assert (Ht : (t < length (th s))%nat) by (apply pc_nonidle_lt; rewrite E; discriminate));
    pose proof (Hamt t) as [Ha1 Ha2]; rewrite E in Ha1, Ha2; cbn [amt] in Ha1, Ha2;
    pose proof (mod2_opp _ Ha2) as Ha2'; unfold goto, add_supply, set_lock, set_sleepers, set_supply; cbn [cap supply sleepers lock th].
  - (* B1 *)
    pose proof (avail_ev (supply s) (- w) Ha2') as Hav. pose proof (Z.mod_pos_bound (supply s) 2 ltac:(lia)) as Hm.
    apply inv_change'; auto; try (notasleep E); try (rewrite E; unfold avail; cbn [granted pledged]);
    try rewrite flag_spec; destruct (Z.ltb_spec (supply s) w); destruct (Z.eqb_spec (supply s mod 2) 1); cbn [orb];
      try (split; assumption); try discriminate; cbn [granted pledged locked]; try lia; try discriminate; auto.
  - (* B2 *)
    destruct (lock s) eqn:El; [exact Hi|].
    apply inv_change'; auto; try (notasleep E); try (split; assumption); try discriminate; try (rewrite E; unfold avail; cbn [granted pledged]); auto; lia.
  - (* B3 *)
    pose proof (avail_ev (supply s) w Ha2) as Hav.
    pose proof (Hlock t ltac:(now rewrite E)) as El.
    destruct (supply s =? old - w); cbn [cap supply sleepers lock th];
    (apply inv_change'; auto; try (notasleep E); try (split; assumption); try discriminate; try (rewrite E; unfold avail; cbn [granted pledged]); auto; lia).
  - (* B4 *)
    pose proof (Hlock t ltac:(now rewrite E)) as El.
    assert (Hav : bits_set (supply s) - bits_set (supply s) mod 2 = supply s - supply s mod 2).
    { rewrite bits_set_spec. pose proof (Z.div_mod (supply s) 2 ltac:(lia)) as Hd.
      assert (M : (supply s - supply s mod 2 + 1) mod 2 = 1).
      { replace (supply s - supply s mod 2 + 1) with (1 + supply s / 2 * 2) by lia. rewrite Z.mod_add by lia. reflexivity. }
      rewrite M. lia. }
    assert (Hni : ~ In t (map fst (sleepers s))).
    { intros H. apply in_map_iff in H. destruct H as ([t' w'] & Et & H). cbn in Et. subst t'. destruct (Hslp _ _ H) as [_ [H1|H1]]; congruence. }
    apply inv_change; auto; try (split; assumption); try discriminate; try (rewrite E; unfold avail; cbn [granted pledged]); auto; try lia.
    + intros t' w' H. apply in_app_iff in H. destruct H as [H|[H|[]]].
      * destruct (Hslp _ _ H) as [H1 H2]. split; [exact H1|]. split; [auto|]. intros ->. exfalso. apply Hni. apply (in_map fst) in H. exact H.
      * injection H as <- <-. split; [exact Ht|]. split; [congruence|auto].
    + rewrite map_app. cbn [map fst]. apply NoDup_Add with (a := t) (l := map fst (sleepers s)); [|auto].
      rewrite <- (app_nil_r (map fst (sleepers s))) at 1. apply Add_app.
  - (* A0 *)
    destruct (lock s) eqn:El; [exact Hi|].
    apply inv_change'; auto; try (notasleep E); try (split; assumption); try discriminate; try (rewrite E; unfold avail; cbn [granted pledged]); auto; lia.
  - (* A1 *)
    pose proof (Hlock t ltac:(now rewrite E)) as El.
    destruct (sleepers s) as [|[t' w] rest] eqn:Es.
    + cbn [cap supply sleepers lock th]. rewrite <- Es. rewrite bits_clear_spec.
      assert (M : (supply s - supply s mod 2) mod 2 = 0).
      { pose proof (Z.div_mod (supply s) 2 ltac:(lia)). replace (supply s - supply s mod 2) with (supply s / 2 * 2) by lia. apply Z.mod_mul. lia. }
      apply inv_change'; auto; try (notasleep E); try (split; [cbn; lia|reflexivity]); try discriminate; try (rewrite E; unfold avail; cbn [granted pledged]); auto; lia.
    + cbn [cap supply sleepers lock th].
      assert (Hw : 0 <= w /\ w mod 2 = 0).
      { destruct (Hslp t' w (or_introl eq_refl)) as [_ H]. destruct (Hamt t') as [H1 H2]. destruct H as [H|H]; rewrite H in H1, H2; cbn in *; auto. }
      destruct Hw as [Hw1 Hw2]. pose proof (mod2_opp w Hw2) as Hw3. pose proof (avail_ev (supply s) (- w) Hw3) as Hav.
      pose proof (Z.mod_pos_bound (supply s) 2 ltac:(lia)) as Hm.
      pose proof (Z.div_mod (supply s) 2 ltac:(lia)) as Hdm. pose proof (Z.div_mod w 2 ltac:(lia)) as Hdw.
      rewrite <- Es.
      destruct (Z.ltb_spec (supply s) w) as [Hlt|Hge].
      * apply inv_change'; auto; try (notasleep E); try (split; assumption); try discriminate; try (rewrite E; unfold avail; cbn [granted pledged]); auto; try lia.
      * apply inv_change'; auto; try (notasleep E); try (split; assumption); try discriminate; try (rewrite E; unfold avail; cbn [granted pledged]); auto; try lia.
        intros w0 [= <-]. rewrite Es. eauto.
  - (* A2 *)
    pose proof (avail_ev (supply s) w Ha2) as Hav.
    pose proof (Hlock t ltac:(now rewrite E)) as El.
    apply inv_change'; auto; try (notasleep E); try (split; [cbn; lia|reflexivity]); try discriminate; try (rewrite E; unfold avail; cbn [granted pledged]); auto; lia.
  - (* A3 *)
    pose proof (Hlock t ltac:(now rewrite E)) as El.
    destruct (Ha3 t w E) as (t' & rest & Es). rewrite Es. cbn [cap supply sleepers lock th].
    unfold pc_of at 1. cbn [th]. fold (pc_of s t').
    assert (Hin : In (t', w) (sleepers s)) by (rewrite Es; left; reflexivity).
    destruct (Hslp t' w Hin) as [Ht' Hpc]. assert (Hne : t' <> t) by (intros ->; destruct Hpc; congruence).
    assert (Hndr : NoDup (map fst rest)) by (rewrite Es in Hnd; cbn in Hnd; now inversion Hnd).
    assert (Hnir : ~ In t' (map fst rest)) by (rewrite Es in Hnd; cbn in Hnd; now inversion Hnd).
    assert (Hir : forall a b, In (a, b) rest -> a <> t' /\ a <> t /\ (a < length (th s))%nat /\ (pc_of s a = Sleep b \/ pc_of s a = Gone b)).
    { intros a b H. assert (Hin' : In (a, b) (sleepers s)) by (rewrite Es; right; exact H). destruct (Hslp a b Hin') as [G1 G2].
      split; [intros ->; apply Hnir; apply (in_map fst) in H; exact H|]. split; [intros ->; destruct G2; congruence|auto]. }
    destruct Hpc as [Hpc|Hpc]; rewrite Hpc; cbn [cap supply sleepers lock th].
    + (* Woken: two threads change; go through A4-like intermediate accounting directly *)
      constructor; unfold avail, pc_of; cbn [cap supply sleepers lock th].
      * rewrite !sum_upd by (rewrite ?list_upd_length; assumption).
        rewrite (nth_list_upd_neq (th s) t' t) by exact Hne. fold (pc_of s t) (pc_of s t'). rewrite E, Hpc. cbn [granted pledged].
        unfold avail in Hsum. lia.
      * intros a. destruct (Nat.eq_dec a t) as [->|Ha]; [rewrite nth_list_upd_eq by (rewrite list_upd_length; exact Ht); split; [cbn; lia|reflexivity]|].
        rewrite nth_list_upd_neq by congruence. destruct (Nat.eq_dec a t') as [->|Ha'].
        -- rewrite nth_list_upd_eq by exact Ht'. split; assumption.
        -- rewrite nth_list_upd_neq by congruence. apply Hamt.
      * intros a. destruct (Nat.eq_dec a t) as [->|Ha]; [auto|].
        rewrite nth_list_upd_neq by congruence. destruct (Nat.eq_dec a t') as [->|Ha'].
        -- rewrite nth_list_upd_eq by exact Ht'. discriminate.
        -- rewrite nth_list_upd_neq by congruence. apply Hlock.
      * intros a b H. destruct (Hir a b H) as (G1 & G2 & G3 & G4). rewrite !list_upd_length. split; [exact G3|].
        rewrite !nth_list_upd_neq by congruence. exact G4.
      * exact Hndr.
      * intros a b H. destruct (Nat.eq_dec a t) as [->|Ha]; [rewrite nth_list_upd_eq in H by (rewrite list_upd_length; exact Ht); discriminate|].
        rewrite nth_list_upd_neq in H by congruence. destruct (Nat.eq_dec a t') as [->|Ha'].
        -- rewrite nth_list_upd_eq in H by exact Ht'. discriminate.
        -- rewrite nth_list_upd_neq in H by congruence. assert (lock s = Some a) by (apply Hlock; unfold pc_of; now rewrite H). congruence.
      * rewrite !sum_upd by (rewrite ?list_upd_length; assumption).
        rewrite (nth_list_upd_neq (th s) t' t) by exact Hne. fold (pc_of s t) (pc_of s t'). rewrite E, Hpc. cbn [granted pledged]. lia.
      * intros a. destruct (Nat.eq_dec a t) as [->|Ha]; [rewrite nth_list_upd_eq by (rewrite list_upd_length; exact Ht); discriminate|].
        rewrite nth_list_upd_neq by congruence. destruct (Nat.eq_dec a t') as [->|Ha'].
        -- rewrite nth_list_upd_eq by exact Ht'. discriminate.
        -- rewrite nth_list_upd_neq by congruence. apply Hpan.
      * exact Hcap.
    + apply inv_change; auto; try (split; assumption); try discriminate; try (rewrite E; unfold avail; cbn [granted pledged]); auto; try lia.
      intros a b H. destruct (Hir a b H) as (G1 & G2 & G3 & G4). split; [exact G3|]. split; [auto|]. intros; contradiction.
  - (* A4 *)
    pose proof (avail_ev (supply s) w Ha2) as Hav.
    pose proof (Hlock t ltac:(now rewrite E)) as El.
    apply inv_change'; auto; try (notasleep E); try (split; [cbn; lia|reflexivity]); try discriminate; try (rewrite E; unfold avail; cbn [granted pledged]); auto; lia.
Qed.

(** Moving credit between two threads that are outside borrow and repay. *)
Definition plain (p : pc) : Prop :=
  locked p = false /\ pledged p = 0 /\ p <> Panicked /\ (forall w, p <> Sleep w) /\ (forall w, p <> Gone w) /\ (forall w, p <> A3 w).

Lemma inv_two s t t' p p' : inv s -> (t < length (th s))%nat -> (t' < length (th s))%nat -> t <> t' ->
  plain (pc_of s t) -> plain (pc_of s t') -> ok_pc p -> ok_pc p' -> plain p -> plain p' ->
  granted p + granted p' = granted (pc_of s t) + granted (pc_of s t') ->
  inv (goto (goto s t p) t' p').
Proof.
  intros [Hsum Hamt Hlock Hslp Hnd Ha3 Hle Hpan Hcap] Ht Ht' Hne P1 P2 Ho1 Ho2 Q1 Q2 Hg.
  assert (Hcase : forall a, (a = t' /\ pc_of (goto (goto s t p) t' p') a = p') \/
            (a = t /\ pc_of (goto (goto s t p) t' p') a = p) \/
            (a <> t /\ a <> t' /\ pc_of (goto (goto s t p) t' p') a = pc_of s a)).
  { intros a. destruct (Nat.eq_dec a t') as [->|Ha].
    - left. split; [reflexivity|]. apply pc_goto_eq. unfold goto. cbn [th]. now rewrite list_upd_length.
    - right. rewrite pc_goto_neq by exact Ha. destruct (Nat.eq_dec a t) as [->|Ha'].
      + left. split; [reflexivity|]. now apply pc_goto_eq.
      + right. rewrite pc_goto_neq by exact Ha'. auto. }
  assert (Hs : forall f, sum f (th (goto (goto s t p) t' p')) = sum f (th s) - f (pc_of s t) - f (pc_of s t') + f p + f p').
  { intros f. unfold goto. cbn [th]. rewrite !sum_upd by (rewrite ?list_upd_length; assumption).
    rewrite nth_list_upd_neq by exact Hne. fold (pc_of s t) (pc_of s t'). lia. }
  destruct P1 as (P11 & P12 & P13 & P14 & P15 & P16), P2 as (P21 & P22 & P23 & P24 & P25 & P26),
           Q1 as (Q11 & Q12 & Q13 & Q14 & Q15 & Q16), Q2 as (Q21 & Q22 & Q23 & Q24 & Q25 & Q26).
  constructor; rewrite ?Hs; try exact Hnd; try exact Hcap.
  - unfold avail in *. cbn [goto supply cap] in *. lia.
  - intros a. destruct (Hcase a) as [[-> ->]|[[-> ->]|(_ & _ & ->)]]; auto.
  - intros a. destruct (Hcase a) as [[-> ->]|[[-> ->]|(_ & _ & ->)]]; [congruence|congruence|apply Hlock].
  - intros a w H. change (sleepers (goto (goto s t p) t' p')) with (sleepers s) in H. destruct (Hslp a w H) as [H1 H2].
    split; [unfold goto; cbn [th]; rewrite !list_upd_length; exact H1|].
    destruct (Hcase a) as [[-> _]|[[-> _]|(_ & _ & E)]];
      [destruct H2; exfalso; [eapply P24|eapply P25]; eassumption|destruct H2; exfalso; [eapply P14|eapply P15]; eassumption|].
    rewrite E. exact H2.
  - intros a w. destruct (Hcase a) as [[-> ->]|[[-> ->]|(_ & _ & ->)]]; intros H; [exfalso; eapply Q26; eassumption|exfalso; eapply Q16; eassumption|].
    exact (Ha3 a w H).
  - cbn [goto cap]. lia.
  - intros a. destruct (Hcase a) as [[-> ->]|[[-> ->]|(_ & _ & ->)]]; auto.
Qed.

(** Legal calls: sizes are usize and no larger than the bank. *)
Definition legal_action (s : st) (a : action) : Prop :=
  match a with Borrow _ size => 0 <= 2 * size <= cap s | _ => True end.
Fixpoint legal (s : st) (l : list action) : Prop :=
  match l with [] => True | a :: l' => legal_action s a /\ legal (exec s a) l' end.

Lemma inv_exec s a : inv s -> legal_action s a -> inv (exec s a).
Proof.
  intros Hi Hl. pose proof Hi as [Hsum Hamt Hlock Hslp Hnd Ha3 Hle Hpan Hcap].
  destruct a as [t size|t|t|t|t|t t' x|t t']; cbn [exec legal_action] in *.
  - (* Borrow *)
    destruct (pc_of s t) eqn:E; try exact Hi. destruct (Z.ltb_spec (cap s) (2 * size)); [lia|].
    destruct (Nat.lt_ge_cases t (length (th s))) as [Ht|Ht].
    2: { unfold goto. rewrite list_upd_oob by exact Ht. destruct s; exact Hi. }
    unfold goto. apply inv_change'; auto; try (notasleep E); try discriminate; try (rewrite E; unfold avail; cbn [granted pledged]); auto; try lia.
    split; cbn [amt]; [lia|]. rewrite Z.mul_comm. apply Z.mod_mul. lia.
  - (* Repay *)
    destruct (pc_of s t) eqn:E; try exact Hi.
    assert (Ht : (t < length (th s))%nat) by (apply pc_nonidle_lt; rewrite E; discriminate).
    pose proof (Hamt t) as [Ha1 Ha2]; rewrite E in Ha1, Ha2; cbn [amt] in Ha1, Ha2.
    destruct (Z.eqb_spec c 0) as [->|Hc].
    + unfold goto. apply inv_change'; auto; try (notasleep E); try (split; [cbn; lia|reflexivity]); try discriminate; try (rewrite E; unfold avail; cbn [granted pledged]); auto; lia.
    + pose proof (avail_ev (supply s) c Ha2) as Hav.
      assert (Hgc : c <= sum granted (th s)).
      { assert (Hx : sum granted (list_upd (th s) t Idle) = sum granted (th s) - c).
        { rewrite sum_upd by exact Ht. fold (pc_of s t). rewrite E. cbn. lia. }
        assert (0 <= sum granted (list_upd (th s) t Idle)); [|lia]. apply sum_nonneg. intros a.
        destruct (Nat.eq_dec a t) as [->|Ha]; [rewrite nth_list_upd_eq by exact Ht; cbn; lia|rewrite nth_list_upd_neq by congruence].
        destruct (Hamt a) as [G _]. unfold pc_of in G. destruct (nth a (th s) Idle); cbn in *; lia. }
      pose proof (inv_pledged_nonneg s Hamt). rewrite bits_clear_spec. unfold avail in *.
      destruct (Z.ltb_spec (cap s) (supply s - supply s mod 2 + c)); [lia|].
      unfold goto, add_supply. cbn [cap supply sleepers lock th].
      destruct (flag (supply s));
      (apply inv_change'; auto; try (notasleep E); try (split; [cbn; lia|reflexivity]); try discriminate; try (rewrite E; unfold avail; cbn [granted pledged]); auto; lia).
  - now apply inv_adv.
  - (* Poll *)
    destruct (pc_of s t) eqn:E; try exact Hi.
    assert (Ht : (t < length (th s))%nat) by (apply pc_nonidle_lt; rewrite E; discriminate).
    pose proof (Hamt t) as [Ha1 Ha2]; rewrite E in Ha1, Ha2; cbn [amt] in Ha1, Ha2.
    unfold goto. apply inv_change'; auto; try (notasleep E); try (split; assumption); try discriminate; try (rewrite E; unfold avail; cbn [granted pledged]); auto; lia.
  - (* Abandon *)
    destruct (pc_of s t) eqn:E; try exact Hi;
    (assert (Ht : (t < length (th s))%nat) by (apply pc_nonidle_lt; rewrite E; discriminate));
    pose proof (Hamt t) as [Ha1 Ha2]; rewrite E in Ha1, Ha2; cbn [amt] in Ha1, Ha2.
    + unfold goto. apply inv_change; auto; try (split; assumption); try discriminate; try (rewrite E; unfold avail; cbn [granted pledged]); auto; try lia.
      intros t' w' H. destruct (Hslp t' w' H) as [H1 H2]. split; [exact H1|]. split; [auto|]. intros ->.
      right. destruct H2; congruence.
    + unfold goto. apply inv_change'; auto; try (notasleep E); try (split; assumption); try discriminate; try (rewrite E; unfold avail; cbn [granted pledged]); auto; lia.
  - (* Split *)
    destruct (pc_of s t) eqn:E; try exact Hi. destruct (pc_of s t') eqn:E'; try exact Hi.
    assert (Ht : (t < length (th s))%nat) by (apply pc_nonidle_lt; rewrite E; discriminate).
    pose proof (Hamt t) as [Ha1 Ha2]; rewrite E in Ha1, Ha2; cbn [amt] in Ha1, Ha2.
    destruct ((0 <=? x) && (2 * x <=? c) && (t' <? length (th s))%nat) eqn:Ex; [|exact Hi].
    apply andb_prop in Ex. destruct Ex as [Ex Ex3]. apply andb_prop in Ex. destruct Ex as [Ex1 Ex2]. apply Nat.ltb_lt in Ex3.
    assert (Hne : t <> t') by (intros <-; congruence).
    assert (Hm2 : (2 * x) mod 2 = 0) by (rewrite Z.mul_comm; apply Z.mod_mul; lia).
    assert (Hcm : (c - 2 * x) mod 2 = 0) by (rewrite <- Z.add_opp_r, mod2_shift by (apply mod2_opp; exact Hm2); exact Ha2).
    apply inv_two; auto; try (rewrite E; repeat split; discriminate); try (rewrite E'; repeat split; discriminate);
      try (split; cbn [amt]; assumption || lia); try (repeat split; discriminate).
    rewrite E, E'. cbn. lia.
  - (* Merge *)
    destruct (pc_of s t) eqn:E; try exact Hi. destruct (pc_of s t') eqn:E'; try exact Hi.
    destruct (Nat.eqb_spec t t') as [|Hne]; [exact Hi|].
    assert (Ht : (t < length (th s))%nat) by (apply pc_nonidle_lt; rewrite E; discriminate).
    assert (Ht' : (t' < length (th s))%nat) by (apply pc_nonidle_lt; rewrite E'; discriminate).
    pose proof (Hamt t) as [Ha1 Ha2]; rewrite E in Ha1, Ha2; cbn [amt] in Ha1, Ha2.
    pose proof (Hamt t') as [Hb1 Hb2]; rewrite E' in Hb1, Hb2; cbn [amt] in Hb1, Hb2.
    apply inv_two; auto; try (rewrite E; repeat split; discriminate); try (rewrite E'; repeat split; discriminate);
      try (split; cbn [amt]; [lia|now rewrite mod2_shift || reflexivity]); try (repeat split; discriminate).
    rewrite E, E'. cbn. lia.
Qed.

Lemma cap_exec s a : cap (exec s a) = cap s.
Proof.
  destruct a as [t size|t|t|t|t|t t' x|t t']; cbn [exec]; unfold adv;
  repeat match goal with |- context [match ?x with _ => _ end] => destruct x end; reflexivity.
Qed.

Lemma inv_run l : forall s, inv s -> legal s l -> inv (run s l).
Proof.
  induction l as [|a l IH]; intros s Hi Hl; [exact Hi|]. destruct Hl as [H1 H2]. cbn [run fold_left].
  apply IH; [now apply inv_exec|exact H2].
Qed.

Lemma cap_run l : forall s, cap (run s l) = cap s.
Proof. induction l as [|a l IH]; intros s; [reflexivity|]. cbn [run fold_left]. fold (run (exec s a) l). rewrite IH. apply cap_exec. Qed.

Lemma sum_repeat f n : f Idle = 0 -> sum f (repeat Idle n) = 0.
Proof. intros H. induction n as [|n IH]; [reflexivity|]. cbn [repeat sum fold_right]. unfold sum in IH. lia. Qed.

Lemma pc_init b n t : pc_of (with_capacity b n) t = Idle.
Proof. unfold pc_of, with_capacity. cbn [th]. destruct (Nat.lt_ge_cases t n); [apply nth_repeat|apply nth_overflow; rewrite repeat_length; exact H]. Qed.

Lemma inv_init b n : 0 <= b -> inv (with_capacity b n).
Proof.
  intros Hb. constructor.
  - unfold avail. cbn [with_capacity supply cap th]. rewrite !sum_repeat by reflexivity. rewrite (Z.mul_comm 2 b), Z.mod_mul by lia. lia.
  - intros t. rewrite pc_init. split; [cbn; lia|reflexivity].
  - intros t. rewrite pc_init. discriminate.
  - intros t w [].
  - constructor.
  - intros t w. rewrite pc_init. discriminate.
  - cbn [with_capacity cap th]. rewrite sum_repeat by reflexivity. lia.
  - intros t. rewrite pc_init. discriminate.
  - cbn [with_capacity cap]. lia.
Qed.

(** ** C21.  Any number of threads, any interleaving of their atomic instructions, callers
    that may give up at any point: credit granted, credit available and credit pledged
    for the moment add up to the capacity; what users hold never exceeds the capacity;
    no assertion fails. *)
Theorem C21_credit_conserved : forall bytes n sched, 0 <= bytes -> legal (with_capacity bytes n) sched ->
  let s := run (with_capacity bytes n) sched in
  avail s + sum granted (th s) + sum pledged (th s) = 2 * bytes /\
  0 <= sum granted (th s) <= 2 * bytes /\
  (forall t, pc_of s t <> Panicked) /\
  ((forall t, pledged (pc_of s t) = 0) -> avail s = 2 * bytes - sum granted (th s)).
Proof.
  intros bytes n sched Hb Hl s. assert (Hi : inv s) by (apply inv_run; [now apply inv_init|exact Hl]).
  destruct Hi as [Hsum Hamt Hlock Hslp Hnd Ha3 Hle Hpan Hcap].
  assert (Hc : cap s = 2 * bytes) by (unfold s; rewrite cap_run; reflexivity). rewrite Hc in *.
  assert (Hg : 0 <= sum granted (th s)).
  { apply sum_nonneg. intros t. destruct (Hamt t) as [G _]. unfold pc_of in G. destruct (nth t (th s) Idle); cbn in *; lia. }
  split; [exact Hsum|]. split; [auto|]. split; [exact Hpan|]. intros Hz.
  assert (sum pledged (th s) = 0); [|lia]. unfold pc_of in Hz. revert Hz. clear. generalize (th s) as l. induction l as [|p l IH]; intros H; [reflexivity|].
  cbn [sum fold_right]. pose proof (H O) as H0. cbn in H0. rewrite H0. unfold sum in IH. rewrite IH; [reflexivity|]. intros t. exact (H (S t)).
Qed.

(** Splitting and joining credit (writeback.rs:39-106) keeps its total and never makes a
    part negative. *)
Definition isplit (c x : Z) : Z * Z := (c - Z.shiftl x 1, c - (c - Z.shiftl x 1)).
Definition split_ (c x : Z) : Z * Z := isplit c (Z.min x (Z.shiftr c 1)).
Definition halve (c : Z) : Z * Z := isplit c (Z.shiftr c 2).
Definition take (c : Z) : Z * Z := isplit c (Z.shiftr c 1).
Definition atomic_split (c x : Z) : Z * Z := (Z.max (c - Z.shiftl x 1) 0, Z.min (Z.shiftl x 1) c).

Theorem C21_splits_conserve : forall c x, 0 <= c -> c mod 2 = 0 -> 0 <= x ->
  let good p := fst p + snd p = c /\ 0 <= fst p /\ 0 <= snd p /\ fst p mod 2 = 0 /\ snd p mod 2 = 0 in
  good (split_ c x) /\ good (halve c) /\ good (take c) /\ good (atomic_split c x) /\
  snd (split_ c x) = Z.min (2 * x) c /\ snd (atomic_split c x) = Z.min (2 * x) c /\
  fst (take c) = 0 /\ Z.abs (fst (halve c) - snd (halve c)) <= 2.
Proof.
  intros c x Hc Hm Hx good.
  assert (H1 : forall y, Z.shiftl y 1 = 2 * y) by (intros y; rewrite Z.shiftl_mul_pow2 by lia; lia).
  assert (H2 : forall z, 2 * z mod 2 = 0) by (intros z; rewrite Z.mul_comm; apply Z.mod_mul; lia).
  assert (E : c = 2 * (c / 2)) by (pose proof (Z.div_mod c 2 ltac:(lia)); lia).
  assert (Es : Z.shiftr c 1 = c / 2) by (rewrite Z.shiftr_div_pow2 by lia; reflexivity).
  assert (E4 : Z.shiftr c 2 = c / 4) by (rewrite Z.shiftr_div_pow2 by lia; reflexivity).
  assert (G : forall z w, z = 2 * w -> z mod 2 = 0) by (intros z w ->; apply H2).
  pose proof (Z.div_mod c 4 ltac:(lia)) as D4. pose proof (Z.mod_pos_bound c 4 ltac:(lia)) as B4.
  assert (Hc4 : c mod 4 = 0 \/ c mod 4 = 2) by lia.
  set (h := c / 2) in *.
  unfold good, split_, halve, take, atomic_split, isplit. cbn [fst snd]. rewrite !H1, Es, E4. fold h.
  repeat split; try lia.
Qed.

(** Thread 1 found too little credit, saw a race, and is about to try again; thread 2 is
    about to sleep; thread 0 gave a byte of its credit to thread 3. *)
Example C21_ex : let l := [Borrow 0 6; Adv 0; Borrow 1 6; Adv 1; Borrow 2 3; Adv 1; Adv 2; Adv 1; Split 0 3 1] in
  let s := run (with_capacity 10 4) l in
  legal (with_capacity 10 4) l /\
  th s = [Hold 10; B1 12; B2 6 (-4); Hold 2] /\ sum granted (th s) = 12 /\ sum pledged (th s) = 6 /\ avail s = 2.
Proof. cbv zeta. split; [cbn; repeat split; lia|]. vm_compute. auto. Qed.

(** ** C22.  The claim is false: if credit is repaid after a borrower has found no credit
    under the lock and before it sets the "sleepers" bit, nobody wakes it; then all credit
    is available, yet that borrower, and everybody who borrows later, sleeps forever. *)
Theorem C22_lost_wakeup_refuted : exists bytes n sched t w, legal (with_capacity bytes n) sched /\
  let s := run (with_capacity bytes n) sched in
  pc_of s t = Sleep w /\ avail s = 2 * bytes /\ w <= avail s /\ sum granted (th s) = 0 /\
  forall more, pc_of (run s more) t = Sleep w \/ pc_of (run s more) t = Gone w.
Proof.
  exists 10, 2%nat, [Borrow 0 10; Adv 0; Borrow 1 4; Adv 1; Adv 1; Adv 1; Repay 0; Adv 1], 1%nat, 8.
  split; [cbn; repeat split; lia|]. cbv zeta.
  set (s := run _ _).
  split; [reflexivity|]. split; [reflexivity|]. split; [vm_compute; congruence|]. split; [reflexivity|].
  set (wt := fun p => match p with
              | Idle | Panicked => True
              | B1 w | B4 w => w mod 2 = 0
              | B2 w _ | B3 w _ => w mod 2 = 0
              | Sleep _ | Gone _ => True
              | _ => False end).
  set (P := fun s : st => supply s mod 2 = 1 /\ (forall t, wt (pc_of s t)) /\
            (pc_of s 1%nat = Sleep 8 \/ pc_of s 1%nat = Gone 8)).
  assert (H0 : P s).
  { split; [reflexivity|]. split; [|left; reflexivity]. intros [|[|[|t]]]; vm_compute; auto. }
  assert (Hset : forall s t p sup slp lk, P s -> sup mod 2 = 1 -> wt p ->
            (t = 1%nat -> p = Sleep 8 \/ p = Gone 8) -> P (St (cap s) sup slp lk (list_upd (th s) t p))).
  { clear. intros s t p sup slp lk (H1 & H2 & H3) Hs Hp Ht. split; [exact Hs|].
    unfold pc_of. cbn [th]. destruct (Nat.lt_ge_cases t (length (th s))) as [Hlt|Hge].
    2: { rewrite list_upd_oob by exact Hge. split; [exact H2|exact H3]. }
    split.
    - intros t'. destruct (Nat.eq_dec t' t) as [->|Hne]; [rewrite nth_list_upd_eq by exact Hlt; exact Hp|rewrite nth_list_upd_neq by congruence; apply H2].
    - destruct (Nat.eq_dec 1 t) as [<-|Hne]; [rewrite nth_list_upd_eq by exact Hlt; auto|rewrite nth_list_upd_neq by congruence; exact H3]. }
  assert (Hn1 : forall s t, P s -> t = 1%nat -> pc_of s t = Sleep 8 \/ pc_of s t = Gone 8) by (clear; intros s t (_ & _ & H) ->; exact H).
  assert (Hstep : forall s a, P s -> P (exec s a)).
  { clear - Hset Hn1. intros s a HP. pose proof HP as (H1 & H2 & H3).
    destruct a as [t size|t|t|t|t|t t' x|t t']; cbn [exec]; unfold adv; pose proof (H2 t) as Hw; pose proof (Hn1 s t HP) as Ht;
      destruct (pc_of s t) eqn:E; try exact HP; try contradiction; cbn [wt] in Hw;
      unfold goto, add_supply, set_lock, set_sleepers, set_supply; cbn [cap supply sleepers lock th].
    - apply Hset; [exact HP|exact H1| |intros Et; destruct (Ht Et); discriminate].
      destruct (cap s <? 2 * size); [exact I|]. change ((2 * size) mod 2 = 0). rewrite Z.mul_comm. apply Z.mod_mul. lia.
    - rewrite flag_spec, H1. cbn [Z.eqb Pos.eqb]. rewrite orb_true_r. apply Hset; [exact HP| |exact Hw|intros Et; destruct (Ht Et); discriminate].
      rewrite mod2_shift by (apply mod2_opp; exact Hw). exact H1.
    - destruct (lock s); [exact HP|]. apply Hset; [exact HP|exact H1|exact Hw|intros Et; destruct (Ht Et); discriminate].
    - destruct (supply s =? old - w); cbn [cap supply sleepers lock th];
      (apply Hset; [exact HP|rewrite mod2_shift by exact Hw; exact H1|exact Hw|intros Et; destruct (Ht Et); discriminate]).
    - apply Hset; [exact HP| |exact I|intros Et; destruct (Ht Et); discriminate].
      rewrite bits_set_spec, H1. rewrite Z.sub_add. exact H1.
    - apply Hset; [exact HP|exact H1|exact I|]. intros Et. destruct (Ht Et) as [[= ->]|]; [auto|discriminate]. }
  intros more. assert (H : P (run s more)).
  { revert H0. generalize s. induction more as [|a more IH]; intros s0 H0; [exact H0|].
    cbn [run fold_left]. apply IH. now apply Hstep. }
  apply H.
Qed.

(** ** C22 when calls do not overlap: each borrow or repay runs to completion before the
    next starts.  Then nobody who could be served sleeps. *)
Inductive call := CBorrow (t : nat) (size : Z) | CRepay (t : nat) | CPoll (t : nat) | CAbandon (t : nat).
Definition steps (s : st) (c : call) : list action :=
  match c with
  | CBorrow t size => [Borrow t size; Adv t; Adv t; Adv t; Adv t]
  | CRepay t => Repay t :: Adv t :: repeat (Adv t) (1 + 3 * length (sleepers s))
  | CPoll t => [Poll t]
  | CAbandon t => [Abandon t]
  end.
Definition legal_call (s : st) (c : call) : Prop :=
  match c with CBorrow t size => 0 <= 2 * size <= cap s /\ (t < length (th s))%nat | _ => True end.
Fixpoint calls (s : st) (l : list call) : st :=
  match l with [] => s | c :: l' => calls (run s (steps s c)) l' end.
Fixpoint legal_calls (s : st) (l : list call) : Prop :=
  match l with [] => True | c :: l' => legal_call s c /\ legal_calls (run s (steps s c)) l' end.

(** No thread is inside a call. *)
Definition outside (p : pc) : bool :=
  match p with Idle | Sleep _ | Gone _ | Woken _ | Leaked _ | Hold _ => true | _ => false end.

Record seqinv (s : st) : Prop := Seqinv
  { q_inv : inv s;
    q_lock : lock s = None;
    q_out : forall t, outside (pc_of s t) = true;
    q_in : forall t w, pc_of s t = Sleep w -> In (t, w) (sleepers s);
    q_le : forall t w, In (t, w) (sleepers s) -> w <= cap s;
    q_head : match sleepers s with
             | [] => supply s mod 2 = 0
             | (_, w) :: _ => avail s < w /\ supply s mod 2 = 1
             end }.

(** In the middle of [awaken] by thread [t]. *)
Record awk (s : st) (t : nat) : Prop := Awk
  { a_inv : inv s; a_pc : pc_of s t = A1; a_lock : lock s = Some t;
    a_out : forall t', t' <> t -> outside (pc_of s t') = true;
    a_in : forall t' w, pc_of s t' = Sleep w -> In (t', w) (sleepers s);
    a_le : forall t' w, In (t', w) (sleepers s) -> w <= cap s;
    a_flag : sleepers s <> [] -> supply s mod 2 = 1 }.

Lemma adv_idle s t n : pc_of s t = Idle -> run s (repeat (Adv t) n) = s.
Proof. intros H. induction n as [|n IH]; [reflexivity|]. cbn [repeat run fold_left exec]. unfold adv. rewrite H. exact IH. Qed.

Lemma run_app s a b : run s (a ++ b) = run (run s a) b.
Proof. apply fold_left_app. Qed.

Lemma awaken_seq t : forall k s n, length (sleepers s) = k -> awk s t -> (1 + 3 * k <= n)%nat ->
  seqinv (run s (repeat (Adv t) n)).
Proof.
  induction k as [|k IH]; intros s n Hk [Hi Hpc Hlk Hout Hin Hqle Hfl] Hn;
    (assert (Ht : (t < length (th s))%nat) by (apply pc_nonidle_lt; rewrite Hpc; discriminate)).
  - destruct n as [|n]; [lia|]. cbn [repeat run fold_left exec].
    destruct (sleepers s) as [|] eqn:Es; [|discriminate].
    pose proof (inv_adv s t Hi) as Hi'. unfold adv in *. rewrite Hpc, Es in *.
    match goal with |- context [fold_left exec _ ?x] => set (s' := x) in * end.
    assert (Ep : pc_of s' t = Idle) by (unfold s'; apply pc_goto_eq; exact Ht).
    fold (run s' (repeat (Adv t) n)). rewrite adv_idle by exact Ep.
    constructor; [exact Hi'|reflexivity| | | |].
    + intros t'. destruct (Nat.eq_dec t' t) as [->|Hne]; [now rewrite Ep|]. unfold s'. rewrite pc_goto_neq by exact Hne. exact (Hout t' Hne).
    + intros t' w. destruct (Nat.eq_dec t' t) as [->|Hne]; [rewrite Ep; discriminate|]. unfold s'. rewrite pc_goto_neq by exact Hne.
      intros H. change (pc_of s t' = Sleep w) in H. specialize (Hin t' w H). destruct Hin.
    + intros t' w H. change (In (t', w) (sleepers s)) in H. rewrite Es in H. destruct H.
    + cbn [s' goto set_lock set_supply sleepers supply]. rewrite Es, bits_clear_spec.
      pose proof (Z.div_mod (supply s) 2 ltac:(lia)). replace (supply s - supply s mod 2) with (supply s / 2 * 2) by lia. apply Z.mod_mul. lia.
  - destruct (sleepers s) as [|[t1 w1] rest] eqn:Es; [discriminate|]. cbn [length] in Hk.
    destruct n as [|n]; [lia|]. cbn [repeat run fold_left exec].
    pose proof (inv_adv s t Hi) as Hi1. pose proof Hi as [Hsum Hamt Hlock Hslp Hnd Ha3 Hle Hpan Hcap].
    assert (Hfl1 : supply s mod 2 = 1) by (apply Hfl; discriminate).
    rewrite Es in Hslp, Hnd.
    destruct (Hslp t1 w1 (or_introl eq_refl)) as [Ht1 Hpc1].
    assert (Hw1 : 0 <= w1 /\ w1 mod 2 = 0).
    { destruct (Hamt t1) as [G1 G2]. destruct Hpc1 as [E|E]; rewrite E in G1, G2; auto. }
    assert (Hne1 : t1 <> t) by (intros ->; destruct Hpc1; congruence).
    destruct Hw1 as [Hw1 Hw1m]. pose proof (mod2_opp w1 Hw1m) as Hw1o.
    unfold adv at 1. unfold adv in Hi1. rewrite Hpc, Es in *.
    destruct (Z.ltb_spec (supply s) w1) as [Hlt|Hge].
    + (* not enough: put it back and stop *)
      match goal with |- context [fold_left exec _ ?x] => set (s1 := x) in * end.
      assert (Ep1 : pc_of s1 t = A2 w1) by (unfold s1; apply pc_goto_eq; exact Ht).
      destruct n as [|n]; [lia|]. cbn [repeat fold_left exec].
      pose proof (inv_adv s1 t Hi1) as Hi2. unfold adv in *. rewrite Ep1 in *.
      match goal with |- context [fold_left exec _ ?x] => set (s2 := x) in * end.
      assert (Ep2 : pc_of s2 t = Idle) by (unfold s2; apply pc_goto_eq; unfold s1, goto; cbn [set_lock add_supply th]; rewrite list_upd_length; exact Ht).
      fold (run s2 (repeat (Adv t) n)). rewrite adv_idle by exact Ep2.
      assert (Hoth : forall t', t' <> t -> pc_of s2 t' = pc_of s t').
      { intros t' Hne. unfold s2. rewrite pc_goto_neq by exact Hne.
        change (pc_of s1 t' = pc_of s t'). unfold s1. rewrite pc_goto_neq by exact Hne. reflexivity. }
      assert (Hsup : supply s2 = supply s) by (cbn; lia).
      constructor; [exact Hi2|reflexivity| | | |].
      * intros t'. destruct (Nat.eq_dec t' t) as [->|Hne]; [now rewrite Ep2|]. rewrite Hoth by exact Hne. exact (Hout t' Hne).
      * intros t' w. destruct (Nat.eq_dec t' t) as [->|Hne]; [rewrite Ep2; discriminate|]. rewrite Hoth by exact Hne. intros H.
        change (sleepers s2) with (sleepers s). rewrite Es. exact (Hin t' w H).
      * change (sleepers s2) with (sleepers s). rewrite Es. exact Hqle.
      * change (sleepers s2) with (sleepers s). rewrite Es. unfold avail. rewrite Hsup. split; [lia|exact Hfl1].
    + (* serve the first sleeper *)
      match goal with |- context [fold_left exec _ ?x] => set (s1 := x) in * end.
      assert (Ep1 : pc_of s1 t = A3 w1) by (unfold s1; apply pc_goto_eq; exact Ht).
      assert (Hoth1 : forall t', t' <> t -> pc_of s1 t' = pc_of s t').
      { intros t' Hne. unfold s1. rewrite pc_goto_neq by exact Hne. reflexivity. }
      assert (Hl1 : length (th s1) = length (th s)) by (unfold s1, goto; cbn [th add_supply]; apply list_upd_length).
      assert (Es1 : sleepers s1 = (t1, w1) :: rest) by exact Es.
      assert (Hsup1 : supply s1 mod 2 = 1) by (unfold s1; cbn [supply goto add_supply]; rewrite mod2_shift by exact Hw1o; exact Hfl1).
      destruct n as [|n]; [lia|]. cbn [repeat fold_left exec].
      pose proof (inv_adv s1 t Hi1) as Hi2. unfold adv in *. rewrite Ep1, Es1 in *.
      change (pc_of (set_sleepers s1 rest) t1) with (pc_of s1 t1) in *. rewrite (Hoth1 t1 Hne1) in *.
      assert (Hnir : ~ In t1 (map fst rest)) by (cbn [map fst] in Hnd; now inversion Hnd).
      destruct Hpc1 as [Hpc1|Hpc1]; rewrite Hpc1 in *.
      * match goal with |- context [fold_left exec _ ?x] => set (s2 := x) in * end.
        assert (Ep2 : pc_of s2 t = A1).
        { unfold s2. apply pc_goto_eq. unfold goto; cbn [th set_sleepers]. rewrite list_upd_length, Hl1. exact Ht. }
        assert (Ep2' : pc_of s2 t1 = Woken w1).
        { unfold s2. rewrite pc_goto_neq by exact Hne1. apply pc_goto_eq. cbn [th set_sleepers]. rewrite Hl1. exact Ht1. }
        assert (Hoth2 : forall t', t' <> t -> t' <> t1 -> pc_of s2 t' = pc_of s t').
        { intros t' H1 H2. unfold s2. rewrite !pc_goto_neq by assumption. change (pc_of s1 t' = pc_of s t'). auto. }
        fold (run s2 (repeat (Adv t) n)). apply (IH s2); [cbn; lia| |lia].
        constructor; [exact Hi2|exact Ep2|exact Hlk| | | |].
        -- intros t' Hne. destruct (Nat.eq_dec t' t1) as [->|Hne']; [now rewrite Ep2'|]. rewrite Hoth2 by assumption. exact (Hout t' Hne).
        -- intros t' w H. destruct (Nat.eq_dec t' t) as [->|Hne]; [congruence|].
           destruct (Nat.eq_dec t' t1) as [->|Hne']; [congruence|]. rewrite Hoth2 in H by assumption.
           destruct (Hin t' w H) as [E|E]; [congruence|exact E].
        -- intros t' w H. apply (Hqle t' w). right. exact H.
        -- intros _. exact Hsup1.
      * match goal with |- context [fold_left exec _ ?x] => set (s2 := x) in * end.
        assert (Ep2 : pc_of s2 t = A4 w1).
        { unfold s2. apply pc_goto_eq. cbn [th set_sleepers]. rewrite Hl1. exact Ht. }
        assert (Hl2 : length (th s2) = length (th s)) by (unfold s2, goto; cbn [th set_sleepers]; rewrite list_upd_length; exact Hl1).
        assert (Hoth2 : forall t', t' <> t -> pc_of s2 t' = pc_of s t').
        { intros t' H1. unfold s2. rewrite !pc_goto_neq by assumption. change (pc_of s1 t' = pc_of s t'). auto. }
        destruct n as [|n]; [lia|]. cbn [repeat fold_left exec].
        pose proof (inv_adv s2 t Hi2) as Hi3. unfold adv in *. rewrite Ep2 in *.
        match goal with |- context [fold_left exec _ ?x] => set (s3 := x) in * end.
        assert (Ep3 : pc_of s3 t = A1) by (unfold s3; apply pc_goto_eq; cbn [th add_supply]; rewrite Hl2; exact Ht).
        assert (Hoth3 : forall t', t' <> t -> pc_of s3 t' = pc_of s t').
        { intros t' H1. unfold s3. rewrite !pc_goto_neq by assumption. change (pc_of s2 t' = pc_of s t'). auto. }
        fold (run s3 (repeat (Adv t) n)). apply (IH s3); [cbn; lia| |lia].
        constructor; [exact Hi3|exact Ep3|exact Hlk| | | |].
        -- intros t' Hne. rewrite Hoth3 by assumption. exact (Hout t' Hne).
        -- intros t' w H. destruct (Nat.eq_dec t' t) as [->|Hne]; [congruence|]. rewrite Hoth3 in H by assumption.
           destruct (Hin t' w H) as [E|E]; [congruence|exact E].
        -- intros t' w H. apply (Hqle t' w). right. exact H.
        -- intros _. unfold s3. cbn [supply goto add_supply]. rewrite mod2_shift by exact Hw1m. exact Hsup1.
Qed.

Lemma run_cons s a l : run s (a :: l) = run (exec s a) l.
Proof. reflexivity. Qed.
Lemma adv_out s t : outside (pc_of s t) = true -> exec s (Adv t) = s.
Proof. cbn [exec]. unfold adv. destruct (pc_of s t); cbn; intros; congruence. Qed.
Lemma adv_out_n s t n : outside (pc_of s t) = true -> run s (repeat (Adv t) n) = s.
Proof. intros H. induction n as [|n IH]; [reflexivity|]. cbn [repeat]. rewrite run_cons, adv_out by exact H. exact IH. Qed.

Lemma seq_call s c : seqinv s -> legal_call s c -> seqinv (run s (steps s c)).
Proof.
  intros Hq Hl. pose proof Hq as [Hi Hlk Hout Hin Hqle Hh]. pose proof Hi as [Hsum Hamt Hlock Hslp Hnd Ha3 Hle Hpan Hcap].
  destruct c as [t size|t|t|t]; cbn [steps legal_call] in *.
  - (* borrow *)
    destruct Hl as [Hl Ht].
    pose proof (Hout t) as Ho. destruct (pc_of s t) eqn:E; try discriminate;
      try (assert (E0 : exec s (Borrow t size) = s) by (cbn [exec]; rewrite E; reflexivity);
           assert (Ho' : outside (pc_of s t) = true) by (rewrite E; reflexivity);
           rewrite run_cons, E0; change [Adv t; Adv t; Adv t; Adv t] with (repeat (Adv t) 4);
           rewrite adv_out_n by exact Ho'; exact Hq).
    set (w := 2 * size) in *. assert (Hw2 : w mod 2 = 0) by (unfold w; rewrite Z.mul_comm; apply Z.mod_mul; lia).
    pose proof (inv_exec s (Borrow t size) Hi Hl) as Hi0.
    set (s0 := goto s t (B1 w)) in *.
    assert (E0 : exec s (Borrow t size) = s0).
    { cbn [exec]. rewrite E. fold w. destruct (Z.ltb_spec (cap s) w); [lia|reflexivity]. }
    rewrite run_cons. rewrite E0 in *.
    assert (Ep0 : pc_of s0 t = B1 w) by (apply pc_goto_eq; exact Ht).
    assert (Hoth0 : forall t', t' <> t -> pc_of s0 t' = pc_of s t') by (intros; unfold s0; now rewrite pc_goto_neq).
    pose proof (inv_adv s0 t Hi0) as Hi1.
    assert (Hlen0 : length (th s0) = length (th s)) by (unfold s0, goto; cbn [th]; apply list_upd_length).
    rewrite run_cons. cbn [exec].
    destruct ((supply s <? w) || (supply s mod 2 =? 1)) eqn:Eb.
    + (* sleeps *)
      set (s1 := goto (add_supply s0 (- w)) t (B2 w (supply s))) in *.
      assert (E1 : adv s0 t = s1) by (unfold adv; rewrite Ep0, flag_spec; change (supply s0) with (supply s); rewrite Eb; reflexivity).
      rewrite E1 in *.
      assert (Ep1 : pc_of s1 t = B2 w (supply s)) by (apply pc_goto_eq; cbn [th add_supply]; lia).
      pose proof (inv_adv s1 t Hi1) as Hi2. rewrite run_cons. cbn [exec].
      set (s2 := goto (set_lock s1 (Some t)) t (B3 w (supply s))) in *.
      assert (E2 : adv s1 t = s2) by (unfold adv; rewrite Ep1; change (lock s1) with (lock s); rewrite Hlk; reflexivity).
      rewrite E2 in *.
      assert (Hlen1 : length (th s1) = length (th s)) by (unfold s1, goto; cbn [th add_supply]; rewrite list_upd_length; exact Hlen0).
      assert (Ep2 : pc_of s2 t = B3 w (supply s)) by (apply pc_goto_eq; cbn [th set_lock]; lia).
      pose proof (inv_adv s2 t Hi2) as Hi3. rewrite run_cons. cbn [exec].
      set (s3 := goto (add_supply s2 w) t (B4 w)) in *.
      assert (E3 : adv s2 t = s3).
      { unfold adv. rewrite Ep2. change (supply s2) with (supply s + - w).
        destruct (Z.eqb_spec (supply s + - w) (supply s - w)) as [_|Hx]; [reflexivity|lia]. }
      rewrite E3 in *.
      assert (Hlen2 : length (th s2) = length (th s)) by (unfold s2, goto; cbn [th set_lock]; rewrite list_upd_length; exact Hlen1).
      assert (Ep3 : pc_of s3 t = B4 w) by (apply pc_goto_eq; cbn [th add_supply]; lia).
      pose proof (inv_adv s3 t Hi3) as Hi4. rewrite run_cons. cbn [exec].
      assert (Hs3 : supply s3 = supply s) by (unfold s3, s2, s1; cbn [supply goto add_supply set_lock]; change (supply s0) with (supply s); lia).
      set (s4 := goto (set_lock (set_supply (set_sleepers s3 (sleepers s3 ++ [(t, w)])) (bits_set (supply s3))) None) t (Sleep w)) in *.
      assert (E4 : adv s3 t = s4) by (unfold adv; rewrite Ep3; reflexivity).
      rewrite E4 in *. change (run s4 []) with s4.
      assert (Hlen3 : length (th s3) = length (th s)) by (unfold s3, goto; cbn [th add_supply]; rewrite list_upd_length; exact Hlen2).
      assert (Ep4 : pc_of s4 t = Sleep w) by (apply pc_goto_eq; cbn [th set_lock set_supply set_sleepers]; lia).
      assert (Hoth : forall t', t' <> t -> pc_of s4 t' = pc_of s t').
      { intros t' Hne. unfold s4. rewrite pc_goto_neq by exact Hne. change (pc_of s3 t' = pc_of s t').
        unfold s3. rewrite pc_goto_neq by exact Hne. change (pc_of s2 t' = pc_of s t').
        unfold s2. rewrite pc_goto_neq by exact Hne. change (pc_of s1 t' = pc_of s t').
        unfold s1. rewrite pc_goto_neq by exact Hne. change (pc_of s0 t' = pc_of s t'). auto. }
      assert (Esl : sleepers s4 = sleepers s ++ [(t, w)]) by reflexivity.
      assert (Esu : supply s4 = supply s - supply s mod 2 + 1) by (rewrite <- Hs3; exact (bits_set_spec (supply s3))).
      pose proof (Z.div_mod (supply s) 2 ltac:(lia)) as Hdm.
      assert (M : supply s4 mod 2 = 1).
      { rewrite Esu. replace (supply s - supply s mod 2 + 1) with (1 + supply s / 2 * 2) by lia. rewrite Z.mod_add by lia. reflexivity. }
      constructor; [exact Hi4|reflexivity| | | |].
      * intros t'. destruct (Nat.eq_dec t' t) as [->|Hne]; [now rewrite Ep4|]. rewrite Hoth by exact Hne. apply Hout.
      * intros t' w' H. rewrite Esl, in_app_iff. destruct (Nat.eq_dec t' t) as [->|Hne].
        -- right. left. congruence.
        -- left. rewrite Hoth in H by exact Hne. auto.
      * intros t' w' H. rewrite Esl, in_app_iff in H. change (cap s4) with (cap s). destruct H as [H|[H|[]]]; [exact (Hqle t' w' H)|]. injection H as _ <-. lia.
      * rewrite Esl. unfold avail. rewrite M. destruct (sleepers s) as [|[t1 w1] rest]; cbn [app].
        -- split; [|reflexivity]. rewrite Hh in Eb. cbn [Z.eqb] in Eb. rewrite orb_false_r in Eb. apply Z.ltb_lt in Eb. lia.
        -- destruct Hh as [Hh1 Hh2]. unfold avail in Hh1. split; [lia|reflexivity].
    + (* enough *)
      set (s1 := goto (add_supply s0 (- w)) t (Hold w)) in *.
      assert (E1 : adv s0 t = s1) by (unfold adv; rewrite Ep0, flag_spec; change (supply s0) with (supply s); rewrite Eb; reflexivity).
      rewrite E1 in *.
      assert (Ep1 : pc_of s1 t = Hold w) by (apply pc_goto_eq; cbn [th add_supply]; lia).
      change [Adv t; Adv t; Adv t] with (repeat (Adv t) 3). rewrite adv_out_n by (rewrite Ep1; reflexivity).
      apply orb_false_iff in Eb. destruct Eb as [Eb1 Eb2].
      assert (Hoth : forall t', t' <> t -> pc_of s1 t' = pc_of s t').
      { intros t' Hne. unfold s1. rewrite pc_goto_neq by exact Hne. change (pc_of s0 t' = pc_of s t'). auto. }
      constructor; [exact Hi1|exact Hlk| | | |].
      * intros t'. destruct (Nat.eq_dec t' t) as [->|Hne]; [now rewrite Ep1|]. rewrite Hoth by exact Hne. apply Hout.
      * intros t' w' H. destruct (Nat.eq_dec t' t) as [->|Hne]; [congruence|]. rewrite Hoth in H by exact Hne. exact (Hin t' w' H).
      * exact Hqle.
      * change (sleepers s1) with (sleepers s). destruct (sleepers s) as [|[t1 w1] rest].
        -- cbn [s1 supply goto add_supply]. change (supply s0) with (supply s). rewrite mod2_shift by (apply mod2_opp; exact Hw2). exact Hh.
        -- destruct Hh as [_ Hh]. rewrite Hh in Eb2. discriminate.
  - (* repay *)
    pose proof (Hout t) as Ho.
    change (Adv t :: repeat (Adv t) (1 + 3 * length (sleepers s))) with (repeat (Adv t) (2 + 3 * length (sleepers s))).
    rewrite run_cons.
    destruct (pc_of s t) eqn:E; try discriminate;
      try (assert (E0 : exec s (Repay t) = s) by (cbn [exec]; rewrite E; reflexivity);
           rewrite E0, adv_out_n by (rewrite E; reflexivity); exact Hq).
    assert (Ht : (t < length (th s))%nat) by (apply pc_nonidle_lt; rewrite E; discriminate).
    pose proof (Hamt t) as [Ha1 Ha2]; rewrite E in Ha1, Ha2; cbn [amt] in Ha1, Ha2.
    pose proof (inv_exec s (Repay t) Hi I) as Hi0.
    assert (Hex : exec s (Repay t) = if c =? 0 then goto s t Idle else
              if cap s <? bits_clear (supply s) + c then goto (add_supply s c) t Panicked
              else goto (add_supply s c) t (if supply s mod 2 =? 1 then A0 else Idle)).
    { cbn [exec]. rewrite E, flag_spec. reflexivity. }
    destruct (Z.eqb_spec c 0) as [Hc|Hc].
    + set (s0 := goto s t Idle) in *. rewrite Hex in *. assert (Ep0 : pc_of s0 t = Idle) by (apply pc_goto_eq; exact Ht).
      rewrite adv_out_n by (rewrite Ep0; reflexivity).
      constructor; [exact Hi0|exact Hlk| | |exact Hqle|exact Hh].
      * intros t'. destruct (Nat.eq_dec t' t) as [->|Hne]; [now rewrite Ep0|]. unfold s0. rewrite pc_goto_neq by exact Hne. apply Hout.
      * intros t' w' H. destruct (Nat.eq_dec t' t) as [->|Hne]; [congruence|]. unfold s0 in H. rewrite pc_goto_neq in H by exact Hne. exact (Hin t' w' H).
    + destruct (cap s <? bits_clear (supply s) + c) eqn:Ecap.
      { exfalso. rewrite Hex in Hi0. apply (i_panic _ Hi0 t). apply pc_goto_eq. exact Ht. }
      destruct (sleepers s) as [|[t1 w1] rest] eqn:Es.
      * rewrite Hh in Hex. cbn [Z.eqb] in Hex. set (s0 := goto (add_supply s c) t Idle) in *. rewrite Hex in *.
        assert (Ep0 : pc_of s0 t = Idle) by (apply pc_goto_eq; exact Ht).
        rewrite adv_out_n by (rewrite Ep0; reflexivity).
        constructor; [exact Hi0|exact Hlk| | | |].
        -- intros t'. destruct (Nat.eq_dec t' t) as [->|Hne]; [now rewrite Ep0|]. unfold s0. rewrite pc_goto_neq by exact Hne. apply Hout.
        -- intros t' w' H. destruct (Nat.eq_dec t' t) as [->|Hne]; [congruence|]. unfold s0 in H. rewrite pc_goto_neq in H by exact Hne.
           change (pc_of s t' = Sleep w') in H. destruct (Hin t' w' H).
        -- change (sleepers s0) with (sleepers s). rewrite Es. exact Hqle.
        -- change (sleepers s0) with (sleepers s). rewrite Es. cbn [s0 supply goto add_supply]. rewrite mod2_shift by exact Ha2. exact Hh.
      * destruct Hh as [Hh1 Hh2]. rewrite Hh2 in Hex. cbn [Z.eqb Pos.eqb] in Hex.
        set (s0 := goto (add_supply s c) t A0) in *. rewrite Hex in *.
        assert (Ep0 : pc_of s0 t = A0) by (apply pc_goto_eq; exact Ht).
        assert (Hlen0 : length (th s0) = length (th s)) by (unfold s0, goto; cbn [th add_supply]; apply list_upd_length).
        pose proof (inv_adv s0 t Hi0) as Hi1.
        set (s1 := goto (set_lock s0 (Some t)) t A1) in *.
        assert (E1 : adv s0 t = s1) by (unfold adv; rewrite Ep0; change (lock s0) with (lock s); rewrite Hlk; reflexivity).
        rewrite E1 in *.
        assert (Ep1 : pc_of s1 t = A1) by (apply pc_goto_eq; cbn [th set_lock]; lia).
        assert (Hoth : forall t', t' <> t -> pc_of s1 t' = pc_of s t').
        { intros t' Hne. unfold s1. rewrite pc_goto_neq by exact Hne. change (pc_of s0 t' = pc_of s t'). unfold s0. now rewrite pc_goto_neq by exact Hne. }
        assert (Es1 : sleepers s1 = (t1, w1) :: rest) by exact Es.
        cbn [Nat.add repeat]. rewrite run_cons. cbn [exec]. rewrite E1.
        match goal with |- seqinv (run s1 (Adv t :: repeat (Adv t) ?n)) => change (Adv t :: repeat (Adv t) n) with (repeat (Adv t) (S n)) end.
        apply (awaken_seq t (length (sleepers s1))); [reflexivity| |rewrite Es1; lia].
        constructor; [exact Hi1|exact Ep1|reflexivity| | | |].
        -- intros t' Hne. rewrite Hoth by exact Hne. apply Hout.
        -- intros t' w' H. destruct (Nat.eq_dec t' t) as [->|Hne]; [congruence|]. rewrite Hoth in H by exact Hne. rewrite Es1. exact (Hin t' w' H).
        -- rewrite Es1. exact Hqle.
        -- intros _. cbn [s1 s0 supply goto add_supply set_lock]. rewrite mod2_shift by exact Ha2. exact Hh2.
  - (* poll *)
    cbn [run fold_left]. pose proof (inv_exec s (Poll t) Hi I) as Hi0. cbn [exec] in *.
    destruct (pc_of s t) eqn:E; try exact Hq.
    assert (Ht : (t < length (th s))%nat) by (apply pc_nonidle_lt; rewrite E; discriminate).
    constructor; [exact Hi0|exact Hlk| | |exact Hqle|exact Hh].
    + intros t'. destruct (Nat.eq_dec t' t) as [->|Hne]; [now rewrite pc_goto_eq|]. rewrite pc_goto_neq by exact Hne. apply Hout.
    + intros t' w' H. destruct (Nat.eq_dec t' t) as [->|Hne]; [rewrite pc_goto_eq in H by exact Ht; discriminate|]. rewrite pc_goto_neq in H by exact Hne. exact (Hin t' w' H).
  - (* abandon *)
    cbn [run fold_left]. pose proof (inv_exec s (Abandon t) Hi I) as Hi0. cbn [exec] in *.
    destruct (pc_of s t) eqn:E; try exact Hq;
    (assert (Ht : (t < length (th s))%nat) by (apply pc_nonidle_lt; rewrite E; discriminate));
    (constructor; [exact Hi0|exact Hlk| | |exact Hqle|exact Hh];
    [ intros t'; destruct (Nat.eq_dec t' t) as [->|Hne]; [now rewrite pc_goto_eq|]; rewrite pc_goto_neq by exact Hne; apply Hout
    | intros t' w' H; destruct (Nat.eq_dec t' t) as [->|Hne]; [rewrite pc_goto_eq in H by exact Ht; discriminate|]; rewrite pc_goto_neq in H by exact Hne; exact (Hin t' w' H)]).
Qed.

Lemma seq_calls l : forall s, seqinv s -> legal_calls s l -> seqinv (calls s l).
Proof. induction l as [|c l IH]; intros s Hq Hl; [exact Hq|]. destruct Hl as [H1 H2]. cbn [calls]. apply IH; [now apply seq_call|exact H2]. Qed.

(** If a borrower sleeps, the first in line wants more than is available; if all credit
    has been repaid, nobody sleeps. *)
Theorem C22_no_lost_wakeup_partial : forall bytes n l, 0 <= bytes -> legal_calls (with_capacity bytes n) l ->
  let s := calls (with_capacity bytes n) l in
  (forall t, outside (pc_of s t) = true) /\
  (forall t w, pc_of s t = Sleep w -> In (t, w) (sleepers s) /\
     exists t0 w0 rest, sleepers s = (t0, w0) :: rest /\ avail s < w0) /\
  (sum granted (th s) = 0 -> forall t w, pc_of s t <> Sleep w).
Proof.
  intros bytes n l Hb Hl s.
  assert (Hq : seqinv s).
  { apply seq_calls; [|exact Hl]. constructor; [now apply inv_init|reflexivity| | | |].
    - intros t. now rewrite pc_init.
    - intros t w. rewrite pc_init. discriminate.
    - intros t w [].
    - cbn [with_capacity sleepers supply]. rewrite Z.mul_comm. apply Z.mod_mul. lia. }
  destruct Hq as [Hi Hlk Hout Hin Hqle Hh]. split; [exact Hout|].
  assert (H1 : forall t w, pc_of s t = Sleep w -> In (t, w) (sleepers s) /\
     exists t0 w0 rest, sleepers s = (t0, w0) :: rest /\ avail s < w0).
  { intros t w H. specialize (Hin t w H). split; [exact Hin|]. destruct (sleepers s) as [|[t0 w0] rest]; [destruct Hin|].
    exists t0, w0, rest. split; [reflexivity|apply Hh]. }
  split; [exact H1|]. intros Hz t w H. destruct (H1 t w H) as (_ & t0 & w0 & rest & Es & Ha).
  pose proof Hi as [Hsum Hamt Hlock Hslp Hnd Ha3 Hle Hpan Hcap].
  assert (Hpl : sum pledged (th s) = 0).
  { assert (Hz' : forall a, pledged (pc_of s a) = 0) by (intros a; specialize (Hout a); destruct (pc_of s a); try discriminate; reflexivity).
    unfold pc_of in Hz'. revert Hz'. clear. generalize (th s) as q. induction q as [|p q IH]; intros H; [reflexivity|].
    cbn [sum fold_right]. pose proof (H O) as H0. cbn in H0. rewrite H0. unfold sum in IH. rewrite IH; [reflexivity|]. intros a. exact (H (S a)). }
  assert (Hbound : w0 <= cap s).
  { apply (Hqle t0). rewrite Es. left. reflexivity. }
  lia.
Qed.

(** Capacity 10: thread 1 waits for 6 while thread 0 holds 6; thread 2's 2 bytes queue
    behind it.  When thread 0 repays, both are served. *)
Example C22_ex : let l := [CBorrow 0 6; CBorrow 1 6; CBorrow 2 2] in
  let s := calls (with_capacity 10 3) l in
  legal_calls (with_capacity 10 3) l /\ th s = [Hold 12; Sleep 12; Sleep 4] /\
  th (calls s [CRepay 0; CPoll 1]) = [Idle; Hold 12; Woken 4].
Proof. cbv zeta. split; [cbn; repeat split; lia|]. vm_compute. auto. Qed.

(** Dropping a woken but not yet polled borrow loses its credit for good. *)
Theorem C21_dropped_future_leaks_refuted : exists bytes n l,
  legal_calls (with_capacity bytes n) l /\
  let s := calls (with_capacity bytes n) l in
  (forall t c, pc_of s t <> Hold c) /\ sleepers s = [] /\ avail s < 2 * bytes.
Proof.
  exists 10, 2%nat, [CBorrow 0 6; CBorrow 1 6; CRepay 0; CAbandon 1]. split; [cbn; repeat split; lia|]. cbv zeta.
  split; [|vm_compute; auto]. intros [|[|[|t]]] c; vm_compute; discriminate.
Qed.

Print Assumptions C21_credit_conserved.
Print Assumptions C21_splits_conserve.
Print Assumptions C21_dropped_future_leaks_refuted.
Print Assumptions C22_lost_wakeup_refuted.
Print Assumptions C22_no_lost_wakeup_partial.
