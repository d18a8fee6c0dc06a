(** * The B-tree: range deletion, first pass *)
From Verif Require Import Common ZMap Tree_Model TreeRD_Model Tree_Inv Tree_Proofs Tree_Remove.
From Coq Require Import Permutation.

Section RD.
Context {V : Type}.
Notation elem := (@elem V).
Notation node := (@node V).
Notation tree := (@tree V).
Context (lim : limits).
Context (HL : lims_ok lim 1 1).
Notation good := (@good V lim 1 1).
Notation egood := (@egood V lim 1 1).
Notation len_ok := (@len_ok V lim 1 1).

Definition hit (s e : bound) (p : Z * V) : bool := above s (fst p) && below e (fst p).
(** what a range deletion leaves *)
Definition D (s e : bound) (l : list (Z * V)) : list (Z * V) := filter (fun p => negb (hit s e p)) l.

Lemma D_app s e a b : D s e (a ++ b) = D s e a ++ D s e b.
Proof. apply filter_app. Qed.
Lemma D_above s e l : Forall (fun p : Z * V => above s (fst p) = false) l -> D s e l = l.
Proof. intros H. apply filter_all. eapply Forall_impl; [|exact H]. unfold hit. intros p ->. reflexivity. Qed.
Lemma D_below s e l : Forall (fun p : Z * V => below e (fst p) = false) l -> D s e l = l.
Proof. intros H. apply filter_all. eapply Forall_impl; [|exact H]. unfold hit. intros p ->. now rewrite andb_false_r. Qed.
Lemma D_all s e l : Forall (fun p : Z * V => above s (fst p) = true) l -> Forall (fun p : Z * V => below e (fst p) = true) l -> D s e l = [].
Proof.
  intros H1 H2. apply filter_none. rewrite Forall_forall in *. intros p I. unfold hit. rewrite H1, H2 by assumption. reflexivity.
Qed.

(** ** Chains *)

Lemma chain_tail h lo hi (x : elem) B : chain (egood h) lo hi (x :: B) ->
  chain (egood h) lo hi B /\ le_opt (Some (e_key x)) (nextkey hi B).
Proof.
  intros (A & (E & _) & C). split; [eapply chain_lo; [|exact C]; lia|].
  destruct (nextkey hi B); cbn in *; [lia|exact I].
Qed.
Lemma chain_drop_head h lo hi X B : chain (egood h) lo hi (X ++ B) ->
  chain (egood h) lo hi B /\ le_opt (nextkey hi (X ++ B)) (nextkey hi B).
Proof.
  revert lo; induction X as [|x X IH]; intros lo C; cbn [app] in *; [split; [exact C|apply le_opt_refl]|].
  destruct (chain_tail _ _ _ _ _ C) as [C1 L]. destruct (IH _ C1) as [C2 L2]. split; [exact C2|].
  cbn [nextkey]. destruct (nextkey hi (X ++ B)), (nextkey hi B); cbn in *; try tauto; lia.
Qed.
Lemma chain_drop h lo hi A X B : chain (egood h) lo hi (A ++ X ++ B) -> chain (egood h) lo hi (A ++ B).
Proof.
  rewrite !(chain_app _ _ _ A). intros [C1 C2]. destruct (chain_drop_head _ _ _ _ _ C2) as [C3 L]. split; [|exact C3].
  eapply chain_hi; [apply egood_hi|exact L|exact C1].
Qed.
Lemma chain_replace_ge h lo hi A x B x' : chain (egood h) lo hi (A ++ x :: B) ->
  e_key x <= e_key x' -> egood h x' (nextkey hi B) -> chain (egood h) lo hi (A ++ x' :: B).
Proof.
  rewrite !chain_mid. intros (C1&C2&C3&C4) L E. split; [eapply chain_hi; [apply egood_hi| |exact C1]; cbn; lia|].
  split; [lia|]. split; [exact E|]. eapply chain_relo; [exact C4|]. apply E.
Qed.

(** ** Locking without changing the parent *)

Lemma xlock_nc_spec h txg leafc e nx ts :
  egood h e nx -> tx_in ts (txg + 1) e -> ts <= txg -> (leafc = true <-> h = O) ->
  exists e', xlock_nc txg leafc e = Some (e', opt_list (e_ptr e)) /\ egood h e' nx /\ tx_in ts (txg + 1) e' /\
    e_key e <= e_key e' /\ e_node e' = e_node e /\ e_ptr e' = None /\ e_te e' = txg + 1.
Proof.
  intros (A&B&C&Dp&E) [T1 T2] T Hl. destruct e as [k s t p m n]. cbn in *.
  unfold ptr_ok in Dp; cbn in Dp.
  assert (P1 : (1 <= n_len n)%nat) by (apply (len_ok_pos lim 1 1); [lia|lia|exact C]).
  destruct p as [a|].
  - assert (G : good h k nx s (txg + 1) n) by (eapply good_weaken; [exact E|lia|apply le_opt_refl|lia|lia]).
    destruct (start_spec lim 1 1 h k nx s txg n G P1 ltac:(lia)) as (st & Hs & Hst & Gst). rewrite Hs.
    assert (K : exists k', n_key n = Some k' /\ k <= k' /\ lt_opt k' nx /\ good h k' nx st (txg + 1) n).
    { destruct h, n as [l|cs]; try (cbn in E; tauto).
      - destruct l as [|[k' v] l]; [cbn in P1; lia|]. exists k'. split; [reflexivity|]. destruct Gst as [Z F].
        inversion F as [|? ? [F1 F2] F3]; subst. cbn in F1, F2. split; [exact F1|]. split; [exact F2|].
        split; [exact Z|]. assert (Z' := zm_ok_low _ _ _ Z).
        rewrite Forall_forall in *. intros q I. split; [apply Z', I|apply F, I].
      - destruct cs as [|c cs]; [cbn in P1; lia|]. exists (e_key c). split; [reflexivity|].
        apply good_S in Gst. destruct Gst as [Ch Fo]. assert (Ch' := Ch). destruct Ch' as (Q1 & Q2 & Q3). split; [exact Q1|].
        split; [eapply chain_key_hi; [exact Ch|now left]|]. apply good_S. split; [|exact Fo].
        split; [lia|]. split; [exact Q2|exact Q3]. }
    destruct K as (k' & Hk & K1 & K2 & K3). rewrite Hk. eexists. split; [reflexivity|]. unfold egood, tx_in, ptr_ok. cbn.
    split; [split; [exact K2|]; split; [lia|]; split; [exact C|]; split; [exact I|exact K3]|].
    split; [lia|]. split; [lia|]. auto.
  - eexists. split; [reflexivity|]. unfold egood, tx_in, ptr_ok. cbn.
    assert (s <= txg) by lia.
    split; [|split; [destruct leafc; lia|split; [lia|auto]]].
    split; [exact A|]. split; [destruct leafc; lia|]. split; [exact C|]. split; [exact I|].
    assert (G : good h k nx s (txg + 1) n) by (eapply good_weaken; [exact E|lia|apply le_opt_refl|lia|lia]).
    destruct leafc; [|exact G]. destruct Hl as [Hl _]. specialize (Hl eq_refl). subst h. exact G.
Qed.

(** ** Where a range starts and ends among the children *)

Definition proper_range (s e : bound) : Prop :=
  match s, e with
  | Inc a, Inc b => a <= b
  | Inc a, Exc b | Exc a, Inc b | Exc a, Exc b => a < b
  | _, _ => True
  end.
Lemma proper_no_panic s e : proper_range s e -> range_panics s e = false /\ range_is_empty s e = false.
Proof. destruct s, e; cbn; intros; split; try reflexivity; lia. Qed.

Lemma position_mono (cs : list elem) a b : a <= b -> (position cs a <= position cs b)%nat.
Proof.
  intros L. unfold position.
  enough (length (filter (fun e => Z.leb (e_key e) a) cs) <= length (filter (fun e => Z.leb (e_key e) b) cs))%nat by lia.
  induction cs as [|c cs IH]; cbn; [lia|].
  destruct (Z.leb_spec (e_key c) a), (Z.leb_spec (e_key c) b); cbn; lia.
Qed.

Definition cut_start (h : nat) (cs : list elem) (s : bound) (sb : nat + nat) : Prop :=
  match sb with
  | inl i => (i <= length cs)%nat /\ Forall (fun p : Z * V => above s (fst p) = false) (flats h (firstn i cs)) /\
             Forall (fun p : Z * V => above s (fst p) = true) (flats h (skipn i cs))
  | inr i => exists l c r, cs = l ++ c :: r /\ i = length l /\
             Forall (fun p : Z * V => above s (fst p) = false) (flats h l) /\
             Forall (fun p : Z * V => above s (fst p) = true) (flats h r)
  end.
Definition cut_end (h : nat) (cs : list elem) (e : bound) (eb : nat + nat) : Prop :=
  match eb with
  | inr j => (j <= length cs)%nat /\ Forall (fun p : Z * V => below e (fst p) = true) (flats h (firstn j cs)) /\
             Forall (fun p : Z * V => below e (fst p) = false) (flats h (skipn j cs))
  | inl j => exists l c r, cs = l ++ c :: r /\ j = length l /\
             Forall (fun p : Z * V => below e (fst p) = true) (flats h l) /\
             Forall (fun p : Z * V => below e (fst p) = false) (flats h r)
  end.
Definition ordered (sb eb : nat + nat) : Prop :=
  match sb, eb with
  | inl i, inl j | inl i, inr j | inr i, inl j => (i <= j)%nat
  | inr i, inr j => (i < j)%nat
  end.

Lemma flats_ge h lo hi cs : chain (egood h) lo hi cs -> Forall (fun p => lo <= fst p) (flats h cs).
Proof. intros C. apply chain_flats in C. eapply Forall_impl; [|exact C]. intros p [H _]. exact H. Qed.

Lemma start_cut h lo hi cs s : chain (egood h) lo hi cs -> cs <> [] ->
  exists sb, rd_start cs s = Some sb /\ cut_start h cs s sb /\
    match s with
    | Unb => sb = inl O
    | Inc t | Exc t => sb = inl O \/ (exists c, nth_error cs (position cs t) = Some c /\ e_key c <= t /\
         ((sb = inr (position cs t)) \/ (sb = inl (position cs t))))
    end.
Proof.
  intros C N.
  assert (All : forall t, (match n_key (Int cs) with Some k0 => t < k0 | None => False end) -> Forall (fun p : Z * V => t < fst p) (flats h cs)).
  { intros t Ht. destruct cs as [|c cs]; [congruence|]. cbn in Ht.
    assert (C' : chain (egood h) (e_key c) hi (c :: cs)) by (destruct C as (?&?&?); split; [lia|split; assumption]).
    apply flats_ge in C'. eapply Forall_impl; [|exact C']. cbn. intros; lia. }
  assert (K0 : exists k0, n_key (Int cs) = Some k0) by (destruct cs; [congruence|cbn; eauto]).
  destruct K0 as [k0 K0].
  assert (Pos : forall t, k0 <= t -> exists l c r, cs = l ++ c :: r /\ position cs t = length l /\ e_key c <= t /\
     Forall (fun p : Z * V => fst p < e_key c) (flats h l) /\ Forall (fun p : Z * V => t < fst p) (flats h r) /\
     Forall (fun p : Z * V => e_key c <= fst p) (flats h (c :: r))).
  { intros t Ht. destruct (position_split _ _ _ _ t C N) as (l & c & r & E & P & A & B). subst cs.
    assert (A' : e_key c <= t). { destruct A as [->|A]; [|exact A]. cbn in K0. injection K0 as <-. exact Ht. }
    exists l, c, r. split; [reflexivity|]. split; [exact P|]. split; [exact A'|].
    destruct (around lim 1 1 _ _ _ _ _ _ _ C A B) as [_ Fr]. destruct (chain_parts _ _ _ _ _ _ _ _ _ C) as (Fl & _).
    split; [exact Fl|]. split; [exact Fr|]. apply chain_mid in C. destruct C as (_&_&C1&C2).
    apply flats_ge with (hi := hi). split; [lia|]. split; [exact C1|exact C2]. }
  destruct s as [t|t|]; cbn [rd_start].
  - rewrite K0. destruct (Z.ltb_spec t k0) as [L|L].
    + exists (inl O). split; [reflexivity|]. split; [|now left]. cbn. split; [lia|]. split; [constructor|].
      specialize (All t). rewrite K0 in All. eapply Forall_impl; [|apply All; exact L]. cbn; intros; lia.
    + destruct (Pos t L) as (l & c & r & E & P & Kc & F1 & F2 & F3). rewrite P. subst cs. rewrite nth_error_mid.
      destruct (Z.eqb_spec (e_key c) t) as [Q|Q].
      * exists (inl (length l)). split; [reflexivity|]. split; [|right; exists c; auto].
        cbn. split; [rewrite app_length; lia|]. rewrite firstn_mid.
        split; [eapply Forall_impl; [|exact F1]; cbn; intros; lia|].
        rewrite skipn_app, skipn_all, Nat.sub_diag. eapply Forall_impl; [|exact F3]. cbn; intros; lia.
      * exists (inr (length l)). split; [reflexivity|]. split; [|right; exists c; auto].
        cbn. exists l, c, r. split; [reflexivity|]. split; [reflexivity|].
        split; [eapply Forall_impl; [|exact F1]|eapply Forall_impl; [|exact F2]]; cbn; intros; lia.
  - rewrite K0. destruct (Z.ltb_spec t k0) as [L|L].
    + exists (inl O). split; [reflexivity|]. split; [|now left]. cbn. split; [lia|]. split; [constructor|].
      specialize (All t). rewrite K0 in All. eapply Forall_impl; [|apply All; exact L]. cbn; intros; lia.
    + destruct (Pos t L) as (l & c & r & E & P & Kc & F1 & F2 & F3). rewrite P. subst cs. rewrite nth_error_mid.
      exists (inr (length l)). split; [reflexivity|]. split; [|right; exists c; auto].
      cbn. exists l, c, r. split; [reflexivity|]. split; [reflexivity|].
      split; [eapply Forall_impl; [|exact F1]|eapply Forall_impl; [|exact F2]]; cbn; intros; lia.
  - exists (inl O). split; [reflexivity|]. split; [|reflexivity]. cbn. split; [lia|]. split; [constructor|].
    apply Forall_forall. reflexivity.
Qed.

Lemma end_cut h lo hi cs e : chain (egood h) lo hi cs -> cs <> [] ->
  exists eb, rd_end cs e hi = Some eb /\ cut_end h cs e eb /\
    match e with
    | Unb => eb = inr (length cs)
    | Inc t => eb = inr (S (position cs t)) \/ eb = inl (position cs t)
    | Exc t => eb = inr (S (position cs t)) \/ eb = inl (position cs t) \/
               (eb = inr (position cs t) /\ exists c, nth_error cs (position cs t) = Some c /\ e_key c = t)
    end.
Proof.
  intros C N.
  assert (Pos : forall t, exists l c r, cs = l ++ c :: r /\ position cs t = length l /\
     Forall (fun p : Z * V => fst p < t) (flats h l) /\ Forall (fun p : Z * V => t < fst p) (flats h r) /\
     Forall (fun p : Z * V => e_key c <= fst p) (flats h (c :: r))).
  { intros t. destruct (position_split _ _ _ _ t C N) as (l & c & r & E & P & A & B). subst cs.
    exists l, c, r. split; [reflexivity|]. split; [exact P|].
    destruct (around lim 1 1 _ _ _ _ _ _ _ C A B) as [Fl Fr].
    split; [exact Fl|]. split; [exact Fr|]. apply chain_mid in C. destruct C as (_&_&C1&C2).
    apply flats_ge with (hi := hi). split; [lia|]. split; [exact C1|exact C2]. }
  assert (Past : forall t, (match hi with Some u => u <=? t | None => false end) = true -> Forall (fun p : Z * V => fst p < t) (flats h cs)).
  { intros t H. destruct hi as [u|]; [|discriminate]. apply Z.leb_le in H. apply chain_flats in C.
    eapply Forall_impl; [|exact C]. intros p [_ X]. cbn in X. lia. }
  destruct e as [t|t|]; cbn [rd_end].
  - destruct (Pos t) as (l & c & r & E & P & F1 & F2 & F3). rewrite P. subst cs.
    destruct (match hi with Some u => u <=? t | None => false end) eqn:Pa.
    + exists (inr (S (length l))). split; [reflexivity|]. split; [|now left]. cbn [cut_end].
      split; [rewrite app_length; cbn; lia|]. rewrite skipn_mid.
      split; [|eapply Forall_impl; [|exact F2]; cbn; intros; lia].
      specialize (Past t Pa). replace (S (length l)) with (length (l ++ [c])) by (rewrite app_length; cbn; lia).
      change (c :: r) with ([c] ++ r) in *. rewrite app_assoc in *. rewrite firstn_mid.
      rewrite flats_app in Past. apply Forall_app in Past. eapply Forall_impl; [|exact (proj1 Past)]. cbn; intros; lia.
    + exists (inl (length l)). split; [reflexivity|]. split; [|now right]. cbn. exists l, c, r. split; [reflexivity|].
      split; [reflexivity|]. split; [eapply Forall_impl; [|exact F1]|eapply Forall_impl; [|exact F2]]; cbn; intros; lia.
  - destruct (Pos t) as (l & c & r & E & P & F1 & F2 & F3). rewrite P. subst cs.
    destruct (match hi with Some u => u <=? t | None => false end) eqn:Pa.
    + exists (inr (S (length l))). split; [reflexivity|]. split; [|now left]. cbn [cut_end].
      split; [rewrite app_length; cbn; lia|]. rewrite skipn_mid.
      split; [|eapply Forall_impl; [|exact F2]; cbn; intros; lia].
      specialize (Past t Pa). replace (S (length l)) with (length (l ++ [c])) by (rewrite app_length; cbn; lia).
      change (c :: r) with ([c] ++ r) in *. rewrite app_assoc in *. rewrite firstn_mid.
      rewrite flats_app in Past. apply Forall_app in Past. eapply Forall_impl; [|exact (proj1 Past)]. cbn; intros; lia.
    + rewrite nth_error_mid. destruct (Z.eqb_spec (e_key c) t) as [Q|Q].
      * exists (inr (length l)). split; [reflexivity|]. split; [|right; right; split; [reflexivity|exists c; auto]].
        cbn [cut_end]. split; [rewrite app_length; lia|]. rewrite firstn_mid.
        split; [eapply Forall_impl; [|exact F1]; cbn; intros; lia|].
        rewrite skipn_app, skipn_all, Nat.sub_diag. eapply Forall_impl; [|exact F3]. cbn; intros; lia.
      * exists (inl (length l)). split; [reflexivity|]. split; [|right; now left]. cbn. exists l, c, r. split; [reflexivity|].
        split; [reflexivity|]. split; [eapply Forall_impl; [|exact F1]|eapply Forall_impl; [|exact F2]]; cbn; intros; lia.
  - exists (inr (length cs)). split; [reflexivity|]. split; [|reflexivity]. cbn. split; [lia|].
    split; [apply Forall_forall; reflexivity|]. rewrite skipn_all. constructor.
Qed.

Lemma cuts h lo hi cs s e : chain (egood h) lo hi cs -> cs <> [] -> proper_range s e ->
  exists sb eb, rd_start cs s = Some sb /\ rd_end cs e hi = Some eb /\
    cut_start h cs s sb /\ cut_end h cs e eb /\ ordered sb eb.
Proof.
  intros C N P. destruct (start_cut _ _ _ _ s C N) as (sb & H1 & H2 & H3).
  destruct (end_cut _ _ _ _ e C N) as (eb & G1 & G2 & G3). exists sb, eb.
  split; [exact H1|]. split; [exact G1|]. split; [exact H2|]. split; [exact G2|].
  assert (Li : forall t c, nth_error cs (position cs t) = Some c -> (position cs t < length cs)%nat).
  { intros t c H. apply nth_error_Some. congruence. }
  assert (Z0 : sb = inl O -> ordered sb eb) by (intros ->; destruct eb; cbn; lia).
  assert (Main : forall t u c, t <= u -> nth_error cs (position cs t) = Some c -> e_key c <= t ->
     (sb = inr (position cs t) \/ sb = inl (position cs t)) ->
     eb = inr (S (position cs u)) \/ eb = inl (position cs u) \/
     (t < u /\ eb = inr (position cs u) /\ exists c, nth_error cs (position cs u) = Some c /\ e_key c = u) -> ordered sb eb).
  { intros t u c L Hc Kc Hs He. pose proof (position_mono cs t u L) as Pm.
    destruct Hs as [->| ->], He as [->|[->|(Lt & -> & c' & Hc' & Kc')]]; cbn; try lia.
    destruct (Nat.eq_dec (position cs t) (position cs u)) as [E|E]; [|lia]. rewrite E, Hc' in Hc. injection Hc as <-. lia. }
  destruct s as [t|t|]; [| |apply Z0; exact H3];
    (destruct H3 as [H3|(c & Hc & Kc & H3)]; [apply Z0; exact H3|]).
  - destruct e as [u|u|]; cbn in P.
    + eapply (Main t u); eauto. destruct G3; auto.
    + eapply (Main t u); eauto; [lia|]. destruct G3 as [G3|[G3|[G3 G4]]]; auto.
    + apply Li in Hc. destruct H3 as [->| ->]; rewrite G3; cbn; lia.
  - destruct e as [u|u|]; cbn in P.
    + eapply (Main t u); eauto; [lia|]. destruct G3; auto.
    + eapply (Main t u); eauto; [lia|]. destruct G3 as [G3|[G3|[G3 G4]]]; auto.
    + apply Li in Hc. destruct H3 as [->| ->]; rewrite G3; cbn; lia.
Qed.

(** ** The first pass *)

Definition side lim0 (txg : Z) (s e : bound) (h : nat) (ub : option Z) (cs : list elem) (i : nat) : option (elem * bool * list addr) :=
  match nth_error cs i with
  | None => None
  | Some c0 =>
      let ub' := match nth_error cs (S i) with Some x => Some (e_key x) | None => ub end in
      match xlock_nc txg (match h with O => true | _ => false end) c0 with
      | None => None
      | Some (c, popped) =>
          match rd_pass1 lim0 txg s e h ub' (e_node c) with
          | None => None
          | Some (n', dng, popped') => Some (set_node c n', dng, popped ++ popped')
          end
      end
  end.
Definition keepm (o : option (elem * bool * list addr)) : list elem :=
  match o with None => [] | Some (c, dng, _) => if (n_len (e_node c) =? 0)%nat then [] else [set_mark c dng] end.
Definition dngof (o : option (elem * bool * list addr)) : bool := match o with Some (_, d, _) => d | None => false end.
Definition freedof (o : option (elem * bool * list addr)) : list addr := match o with Some (_, _, p) => p | None => [] end.
Definition leftof (sb : nat + nat) : option nat := match sb with inl _ => None | inr i => Some i end.
Definition rightof (eb : nat + nat) : option nat := match eb with inl j => Some j | inr _ => None end.
Definition wstart (sb : nat + nat) : nat := match sb with inl i => i | inr i => S i end.
Definition wend (eb : nat + nat) : nat := match eb with inl j => j | inr j => j end.

Definition pass1_same lim0 txg s e h ub (cs : list elem) i : option (node * bool * list addr) :=
  let ub' := if (S i =? length cs)%nat then ub else option_map e_key (nth_error cs (S i)) in
  match xlock_at txg cs i with
  | None => None
  | Some (cs1, c, popped) =>
      match rd_pass1 lim0 txg s e h ub' (e_node c) with
      | None => None
      | Some (n', dng, popped') =>
          if (n_len n' =? 0)%nat then
            let cs2 := firstn i cs1 ++ skipn (S i) cs1 in
            Some (Int cs2, in_danger lim0 (Int cs2), popped ++ popped')
          else
            let cs2 := put_child cs1 i (set_mark (set_node c n') dng) in
            Some (Int cs2, in_danger lim0 (Int cs2) || dng, popped ++ popped')
      end
  end.
Definition pass1_split lim0 txg s e h ub (cs : list elem) sb eb : option (node * bool * list addr) :=
  let lres := match leftof sb with None => Some None | Some i => option_map Some (side lim0 txg s e h ub cs i) end in
  let rres := match rightof eb with None => Some None | Some j => option_map Some (side lim0 txg s e h ub cs j) end in
  if (wend eb <? wstart sb)%nat || (length cs <? wend eb)%nat then None else
  match lres, rres with
  | Some lo, Some ro =>
      let gone := flat_map (addrs_elem h) (firstn (wend eb - wstart sb) (skipn (wstart sb) cs)) in
      let lcs := firstn (match leftof sb with Some i => i | None => wstart sb end) cs in
      let rcs := skipn (match rightof eb with Some j => S j | None => wend eb end) cs in
      let cs2 := lcs ++ keepm lo ++ keepm ro ++ rcs in
      Some (Int cs2, underflow lim0 (Int cs2) || dngof lo || dngof ro, freedof lo ++ gone ++ freedof ro)
  | _, _ => None
  end.
Lemma rd_pass1_S lim0 txg s e h ub (cs : list elem) :
  rd_pass1 lim0 txg s e (S h) ub (Int cs) =
  match rd_start cs s, rd_end cs e ub with
  | Some sb, Some eb =>
      if match leftof sb, rightof eb with Some i, Some j => (i =? j)%nat | _, _ => false end
      then match leftof sb with None => None | Some i => pass1_same lim0 txg s e h ub cs i end
      else pass1_split lim0 txg s e h ub cs sb eb
  | _, _ => None
  end.
Proof. reflexivity. Qed.

Section Pass1.
Context (txg : Z) (s e : bound) (PR : proper_range s e).

Definition p1_post (h : nat) (lo : Z) (hi : option Z) (ts : Z) (n : node) (res : option (node * bool * list addr)) : Prop :=
  exists n' dng popped, res = Some (n', dng, popped) /\
    good h lo hi ts (txg + 1) n' /\ flat h n' = D s e (flat h n) /\
    Permutation (popped ++ addrs_below h n') (addrs_below h n) /\ same_kind n n' /\ (n_len n' <= n_len n)%nat.

Lemma len0 h (n : node) : n_len n = O -> flat h n = [] /\ addrs_below h n = [].
Proof.
  destruct n as [l|cs]; cbn; intros H.
  - destruct l; [|discriminate]. destruct h; auto.
  - destruct cs; [|discriminate]. destruct h; auto.
Qed.
Lemma egood_mark h (c : elem) m nx : egood h c nx -> egood h (set_mark c m) nx.
Proof. destruct c; exact (fun H => H). Qed.
Lemma mark_facts (c : elem) m : e_key (set_mark c m) = e_key c /\ e_node (set_mark c m) = e_node c /\
  e_ptr (set_mark c m) = e_ptr c /\ e_ts (set_mark c m) = e_ts c /\ e_te (set_mark c m) = e_te c.
Proof. destruct c; cbn; auto. Qed.
Lemma addrs_mark h (c : elem) m : addrs_elem h (set_mark c m) = addrs_elem h c.
Proof. destruct c; reflexivity. Qed.

Definition side_ok h ts (c : elem) nx (c' : elem) (p : list addr) : Prop :=
  e_key c <= e_key c' /\ (n_len (e_node c') = O \/ egood h c' nx) /\ tx_in ts (txg + 1) c' /\
  flat h (e_node c') = D s e (flat h (e_node c)) /\ Permutation (p ++ addrs_elem h c') (addrs_elem h c) /\ e_ptr c' = None.

Definition opt_ok h ts (X : list elem) nx (o : option (elem * bool * list addr)) : Prop :=
  (X = [] /\ o = None) \/ exists c c' d p, X = [c] /\ o = Some (c', d, p) /\ side_ok h ts c nx c' p.

Lemma opt_ok_apply h lo hi ts A X B o :
  opt_ok h ts X (nextkey hi B) o -> chain (egood h) lo hi (A ++ X ++ B) -> Forall (tx_in ts (txg + 1)) (A ++ X ++ B) ->
  chain (egood h) lo hi (A ++ keepm o ++ B) /\ Forall (tx_in ts (txg + 1)) (A ++ keepm o ++ B) /\
  flats h (keepm o) = D s e (flats h X) /\
  Permutation (freedof o ++ flat_map (addrs_elem h) (keepm o)) (flat_map (addrs_elem h) X) /\
  (length (keepm o) <= length X)%nat.
Proof.
  intros [[-> ->]|(c & c' & d & p & -> & -> & K & G & T & Fl & Pe & Pt)] C F; cbn [keepm freedof].
  - split; [exact C|]. split; [exact F|]. cbn. auto.
  - destruct (n_len (e_node c') =? 0)%nat eqn:E.
    + apply Nat.eqb_eq in E. split; [eapply chain_drop; exact C|].
      split; [apply Forall_app in F; destruct F as [F1 F2]; apply Forall_app in F2; apply Forall_app; tauto|].
      destruct (len0 h _ E) as [E1 E2]. cbn [flats flat_map].
      split; [|split; [|cbn; lia]].
      * unfold flats. cbn. rewrite app_nil_r, <- Fl. symmetry. exact E1.
      * rewrite !app_nil_r. rewrite <- Pe, addrs_e, Pt, E2. cbn. now rewrite app_nil_r.
    + apply Nat.eqb_neq in E. destruct G as [G|G]; [congruence|].
      destruct (mark_facts c' d) as (Q1&Q2&Q3&Q4&Q5).
      split; [cbn [app] in *; eapply chain_replace_ge; [exact C|lia|apply egood_mark; exact G]|].
      split; [cbn [app] in *; apply Forall_mid in F; apply Forall_mid; split; [tauto|]; split; [|tauto]; unfold tx_in in *; lia|].
      unfold flats. cbn. rewrite !app_nil_r, addrs_mark, Q2. auto.
Qed.

Lemma nk_cases hi (A : list elem) c r i : i = length A ->
  (if (S i =? length (A ++ c :: r))%nat then hi else option_map e_key (nth_error (A ++ c :: r) (S i))) = nextkey hi r /\
  (match nth_error (A ++ c :: r) (S i) with Some x => Some (e_key x) | None => hi end) = nextkey hi r.
Proof.
  intros ->. rewrite nth_error_app2 by lia. replace (S (length A) - length A)%nat with 1%nat by lia.
  destruct r as [|x r]; cbn [nth_error nextkey option_map].
  - split; [|reflexivity]. rewrite app_length. cbn [length]. destruct (Nat.eqb_spec (S (length A)) (length A + 1)); [reflexivity|lia].
  - split; [|reflexivity]. rewrite app_length. cbn [length]. destruct (Nat.eqb_spec (S (length A)) (length A + S (S (length r)))); [lia|reflexivity].
Qed.

Section Step.
Context (h : nat) (IH : forall lo hi ts n, good h lo hi ts (txg + 1) n -> ts <= txg -> (1 <= n_len n)%nat ->
  p1_post h lo hi ts n (rd_pass1 lim txg s e h hi n)).

Lemma side_spec lo hi ts A c B : chain (egood h) lo hi (A ++ c :: B) -> Forall (tx_in ts (txg + 1)) (A ++ c :: B) -> ts <= txg ->
  exists c' d p, side lim txg s e h hi (A ++ c :: B) (length A) = Some (c', d, p) /\ side_ok h ts c (nextkey hi B) c' p.
Proof.
  intros C F T. unfold side. rewrite nth_error_mid. destruct (nk_cases hi A c B _ eq_refl) as [_ E]. rewrite E.
  apply chain_mid in C. destruct C as (_&_&Eg&_). apply Forall_mid in F. destruct F as (_&Tc&_).
  destruct (xlock_nc_spec h txg (match h with O => true | _ => false end) c _ ts Eg Tc T) as (c1 & Hx & (E1&E2&E3&E4&E5) & [T1 T2] & K & Qn & Qp & Qt).
  { destruct h; split; congruence. }
  rewrite Hx. rewrite Qt in *.
  destruct (IH _ _ _ _ E5 ltac:(lia)) as (n' & d & p & R & G & Fl & Pe & SK & Ln).
  { apply (len_ok_pos lim 1 1); [lia|lia|exact E3]. }
  rewrite R. exists (set_node c1 n'), d, (opt_list (e_ptr c) ++ p). split; [reflexivity|].
  destruct c1 as [k1 s1 t1 p1 m1 n1]. cbn [set_node e_key e_ts e_te e_ptr e_node] in *. subst p1 t1 n1.
  split; [exact K|]. split.
  - destruct (n_len n') eqn:L0; [left; exact L0|right]. split; [exact E1|]. split; [exact E2|].
    split; [destruct (e_node c), n'; cbn in SK, Ln, L0, E3 |- *; try tauto; lia|]. split; [exact I|exact G].
  - split; [split; cbn; lia|]. split; [exact Fl|]. split; [|reflexivity].
    rewrite !addrs_e. cbn [e_ptr e_node opt_list app]. rewrite <- app_assoc. now apply Permutation_app_head.
Qed.

(** the node after the first pass, when the range starts and ends in different children *)
Lemma split_ok lo hi ts L LO M RO R olo oro :
  chain (egood h) lo hi (L ++ LO ++ M ++ RO ++ R) -> Forall (tx_in ts (txg + 1)) (L ++ LO ++ M ++ RO ++ R) ->
  opt_ok h ts LO (nextkey hi (M ++ RO ++ R)) olo -> opt_ok h ts RO (nextkey hi R) oro ->
  D s e (flats h L) = flats h L -> D s e (flats h M) = [] -> D s e (flats h R) = flats h R ->
  let cs2 := L ++ keepm olo ++ keepm oro ++ R in
  chain (egood h) lo hi cs2 /\ Forall (tx_in ts (txg + 1)) cs2 /\
  flats h cs2 = D s e (flats h (L ++ LO ++ M ++ RO ++ R)) /\
  Permutation ((freedof olo ++ flat_map (addrs_elem h) M ++ freedof oro) ++ flat_map (addrs_elem h) cs2)
              (flat_map (addrs_elem h) (L ++ LO ++ M ++ RO ++ R)) /\
  (length cs2 <= length (L ++ LO ++ M ++ RO ++ R))%nat.
Proof.
  intros C F Ol Or DL DM DR cs2.
  destruct (opt_ok_apply h lo hi ts L LO (M ++ RO ++ R) olo Ol C F) as (C1 & F1 & Fl1 & P1 & L1).
  assert (C1' : chain (egood h) lo hi ((L ++ keepm olo ++ M) ++ RO ++ R)) by (rewrite <- !app_assoc; exact C1).
  assert (F1' : Forall (tx_in ts (txg + 1)) ((L ++ keepm olo ++ M) ++ RO ++ R)) by (rewrite <- !app_assoc; exact F1).
  destruct (opt_ok_apply h lo hi ts _ RO R oro Or C1' F1') as (C2 & F2 & Fl2 & P2 & L2).
  rewrite <- !app_assoc in C2, F2.
  assert (C3 : chain (egood h) lo hi cs2).
  { unfold cs2. rewrite app_assoc. rewrite app_assoc in C2. eapply chain_drop. exact C2. }
  split; [exact C3|]. split.
  { unfold cs2. rewrite !Forall_app in *. tauto. }
  split.
  { unfold cs2. rewrite !flats_app, !D_app, DL, DM, DR, Fl1, Fl2. reflexivity. }
  split; [|unfold cs2; rewrite !app_length; lia].
  unfold cs2. rewrite !flat_map_app, <- P1, <- P2, <- !app_assoc.
  set (a := flat_map (addrs_elem h) L). set (b := flat_map (addrs_elem h) (keepm olo)). set (c := flat_map (addrs_elem h) M).
  set (d := flat_map (addrs_elem h) (keepm oro)). set (f := flat_map (addrs_elem h) R).
  clear. generalize (freedof olo) as x, (freedof oro) as y. intros x y.
  (* x c y a b d f ~ a x b c y d f *)
  rewrite (Permutation_app_swap_app y a), (Permutation_app_swap_app c a), (Permutation_app_swap_app x a).
  apply Permutation_app_head, Permutation_app_head.
  rewrite (Permutation_app_swap_app y b), (Permutation_app_swap_app c b). reflexivity.
Qed.

Lemma pass1_node lo hi ts cs : good (S h) lo hi ts (txg + 1) (Int cs) -> ts <= txg -> cs <> [] ->
  p1_post (S h) lo hi ts (Int cs) (rd_pass1 lim txg s e (S h) hi (Int cs)).
Proof.
  intros G T N. apply good_S in G. destruct G as [C F]. rewrite rd_pass1_S.
  destruct (cuts h lo hi cs s e C N PR) as (sb & eb & Hs & He & Cs & Ce & Or). rewrite Hs, He. clear Hs He.
  unfold p1_post. rewrite flat_Int, addrs_Int. cbn [n_len].
  (* when the parts of the children are known *)
  assert (Parts : forall L LO M RO R, cs = L ++ LO ++ M ++ RO ++ R ->
    (LO = [] /\ leftof sb = None /\ length L = wstart sb \/ exists c, LO = [c] /\ leftof sb = Some (length L) /\ S (length L) = wstart sb) ->
    (RO = [] /\ rightof eb = None /\ length (L ++ LO ++ M) = wend eb \/ exists c, RO = [c] /\ rightof eb = Some (length (L ++ LO ++ M)) /\ length (L ++ LO ++ M) = wend eb) ->
    D s e (flats h L) = flats h L -> D s e (flats h M) = [] -> D s e (flats h R) = flats h R ->
    exists n' dng popped, pass1_split lim txg s e h hi cs sb eb = Some (n', dng, popped) /\
      good (S h) lo hi ts (txg + 1) n' /\ flat (S h) n' = D s e (flats h cs) /\
      Permutation (popped ++ addrs_below (S h) n') (flat_map (addrs_elem h) cs) /\ same_kind (Int cs) n' /\ (n_len n' <= length cs)%nat).
  { intros L LO M RO R E Hl Hr DL DM DR. unfold pass1_split.
    assert (Ol : exists olo, match leftof sb with None => Some None | Some i => option_map Some (side lim txg s e h hi cs i) end = Some olo /\
               opt_ok h ts LO (nextkey hi (M ++ RO ++ R)) olo).
    { destruct Hl as [(-> & Hl & _)|(c & -> & Hl & _)]; rewrite Hl.
      - exists None. split; [reflexivity|]. left; auto.
      - subst cs. cbn [app] in *. destruct (side_spec _ _ _ _ _ _ C F T) as (c' & d & p & Hsd & Ok). rewrite Hsd.
        eexists. split; [reflexivity|]. right. exists c, c', d, p. auto. }
    assert (Orr : exists oro, match rightof eb with None => Some None | Some j => option_map Some (side lim txg s e h hi cs j) end = Some oro /\
               opt_ok h ts RO (nextkey hi R) oro).
    { destruct Hr as [(-> & Hr & _)|(c & -> & Hr & _)]; rewrite Hr.
      - exists None. split; [reflexivity|]. left; auto.
      - assert (E' : cs = (L ++ LO ++ M) ++ c :: R) by (rewrite E, <- !app_assoc; reflexivity). rewrite E' in C, F |- *.
        destruct (side_spec _ _ _ _ _ _ C F T) as (c' & d & p & Hsd & Ok). rewrite Hsd.
        eexists. split; [reflexivity|]. right. exists c, c', d, p. auto. }
    destruct Ol as (olo & -> & Ol), Orr as (oro & -> & Orr).
    assert (Ls : wstart sb = length (L ++ LO)).
    { rewrite app_length. destruct Hl as [(-> & _ & Hl)|(c & -> & _ & Hl)]; cbn; lia. }
    assert (Le : wend eb = length (L ++ LO ++ M)) by (destruct Hr as [(_ & _ & ->)|(c & _ & _ & ->)]; reflexivity).
    assert (Hc : ((wend eb <? wstart sb)%nat || (length cs <? wend eb)%nat) = false).
    { rewrite Ls, Le, E, !app_length. apply orb_false_iff. split; apply Nat.ltb_ge; lia. }
    rewrite Hc.
    assert (EL : firstn (match leftof sb with Some i => i | None => wstart sb end) cs = L).
    { rewrite E. destruct Hl as [(-> & -> & <-)|(c & -> & -> & _)]; apply firstn_mid. }
    assert (ER : skipn (match rightof eb with Some j => S j | None => wend eb end) cs = R).
    { assert (E' : cs = (L ++ LO ++ M) ++ RO ++ R) by (rewrite E, <- !app_assoc; reflexivity). rewrite E'.
      destruct Hr as [(-> & -> & <-)|(c & -> & -> & _)].
      - cbn [app]. rewrite skipn_app, skipn_all, Nat.sub_diag. reflexivity.
      - cbn [app]. apply skipn_mid. }
    assert (EM : firstn (wend eb - wstart sb) (skipn (wstart sb) cs) = M).
    { assert (E' : cs = (L ++ LO) ++ M ++ RO ++ R) by (rewrite E, <- !app_assoc; reflexivity). rewrite Ls, Le, E'.
      rewrite skipn_app, skipn_all, Nat.sub_diag. cbn [skipn app].
      replace (length (L ++ LO ++ M) - length (L ++ LO))%nat with (length M) by (rewrite !app_length; lia).
      apply firstn_mid. }
    rewrite EL, ER, EM. rewrite E in C, F.
    destruct (split_ok lo hi ts L LO M RO R olo oro C F Ol Orr DL DM DR) as (X1 & X2 & X3 & X4 & X5).
    eexists _, _, _. split; [reflexivity|]. split; [apply good_S; split; assumption|].
    rewrite flat_Int, addrs_Int, E. split; [exact X3|]. split; [exact X4|]. split; [exact I|exact X5]. }
  destruct sb as [i|i], eb as [j|j]; cbn [leftof rightof wstart wend ordered cut_start cut_end] in *.
  - destruct Ce as (l & c & r & E & -> & Be & Bo). destruct Cs as (Li & Ab & Aa).
    apply (Parts (firstn i cs) [] (skipn i l) [c] r).
    + rewrite E. rewrite <- (firstn_skipn i l) at 1. rewrite firstn_app. replace (i - length l)%nat with O by lia. cbn [firstn app].
      rewrite app_nil_r, <- app_assoc. reflexivity.
    + left. split; [reflexivity|]. split; [reflexivity|]. apply firstn_length_le. exact Li.
    + right. exists c. split; [reflexivity|].
      assert (Q : length (firstn i cs ++ [] ++ skipn i l) = length l).
      { cbn [app]. rewrite app_length, firstn_length_le, skipn_length by exact Li. lia. }
      rewrite Q. auto.
    + apply D_above. exact Ab.
    + assert (Q : skipn i cs = skipn i l ++ c :: r) by (rewrite E, skipn_app; replace (i - length l)%nat with O by lia; reflexivity).
      rewrite Q, flats_app in Aa. apply Forall_app in Aa. apply D_all; [apply Aa|].
      rewrite <- (firstn_skipn i l), flats_app in Be. apply Forall_app in Be. apply Be.
    + apply D_below. exact Bo.
  - destruct Ce as (Lj & Be & Bo). destruct Cs as (Li & Ab & Aa).
    assert (Q : skipn i cs = skipn i (firstn j cs) ++ skipn j cs).
    { rewrite <- (firstn_skipn j cs) at 1. rewrite skipn_app, firstn_length_le by lia. replace (i - j)%nat with O by lia. reflexivity. }
    apply (Parts (firstn i cs) [] (skipn i (firstn j cs)) [] (skipn j cs)).
    + cbn [app]. rewrite <- Q. symmetry. apply firstn_skipn.
    + left. split; [reflexivity|]. split; [reflexivity|]. apply firstn_length_le. exact Li.
    + left. split; [reflexivity|]. split; [reflexivity|]. cbn [app].
      rewrite app_length, skipn_length, !firstn_length_le by lia. lia.
    + apply D_above. exact Ab.
    + rewrite Q, flats_app in Aa. apply Forall_app in Aa. apply D_all; [apply Aa|].
      rewrite <- (firstn_skipn i (firstn j cs)), flats_app in Be. apply Forall_app in Be. apply Be.
    + apply D_below. exact Bo.
  - destruct Cs as (l & c & r & E & -> & Ab & Aa). destruct Ce as (l2 & c2 & r2 & E2 & -> & Be & Bo).
    destruct (Nat.eqb_spec (length l) (length l2)) as [Q|Q].
    + (* the range starts and ends in the same child *)
      assert (X : l2 = l /\ c2 = c /\ r2 = r).
      { rewrite E in E2. clear - E2 Q. revert l2 Q E2; induction l as [|a l IHl]; intros [|b l2] Q E2; try discriminate.
        - cbn in E2. injection E2 as -> ->. auto.
        - cbn in E2, Q. injection E2 as -> E2. destruct (IHl l2 ltac:(lia) E2) as (-> & -> & ->). auto. }
      destruct X as (-> & -> & ->). clear E2 Q Or Parts. subst cs.
      unfold pass1_same. destruct (nk_cases hi l c r _ eq_refl) as [-> _].
      destruct (xlock_at_mid lim 1 1 HL txg h lo hi ts l c r C F) as (c' & Hx & C1 & F1 & [Lk1 Lk2] & Q1 & Q2 & Pe). rewrite Hx.
      assert (C1' := C1). apply chain_mid in C1'. destruct C1' as (_&_&(E1&E2&E3&E4&E5)&_). rewrite Lk2 in E2, E5.
      destruct (IH _ _ _ _ E5 ltac:(lia)) as (n' & d & p & R & G & Fl & Pn & SK & Ln).
      { apply (len_ok_pos lim 1 1); [lia|lia|exact E3]. }
      rewrite R.
      assert (DF : D s e (flats h (l ++ c :: r)) = flats h l ++ flat h n' ++ flats h r).
      { rewrite flats_app, flats_cons, !D_app, Fl, Q2. f_equal; [apply D_above; exact Ab|]. f_equal. apply D_below; exact Bo. }
      destruct (Nat.eqb_spec (n_len n') 0) as [Z|Z].
      * rewrite firstn_mid, skipn_mid. eexists _, _, _. split; [reflexivity|].
        destruct (len0 h _ Z) as [Z1 Z2].
        split. { apply good_S. split; [change (c' :: r) with ([c'] ++ r) in C1; eapply chain_drop; exact C1|].
                 apply Forall_mid in F1. apply Forall_app. tauto. }
        rewrite flat_Int, addrs_Int, DF, Z1, flats_app. split; [reflexivity|].
        split; [|split; [exact I|cbn [n_len]; rewrite !app_length; cbn; lia]].
        rewrite <- Pe, <- app_assoc. apply Permutation_app_head. rewrite addrs_mid, addrs_e, Lk1, <- Pn, Z2, flat_map_app.
        cbn [opt_list app]. rewrite app_nil_r. apply Permutation_app_swap_app.
      * rewrite put_child_mid. eexists _, _, _. split; [reflexivity|].
        destruct c' as [k1 s1 t1 p1 m1 n1]. cbn [set_node set_mark e_key e_ts e_te e_ptr e_node] in *. subst p1 t1 n1.
        split. { apply good_S. split.
                 - eapply chain_replace; [exact C1|reflexivity|]. split; [exact E1|]. split; [cbn; lia|].
                   split; [destruct (e_node c), n'; cbn in SK, Ln, Z, E3 |- *; try tauto; lia|]. split; [exact I|exact G].
                 - apply Forall_mid in F1. apply Forall_mid. exact F1. }
        rewrite flat_Int, addrs_Int, DF, flats_app, flats_cons. cbn [e_node]. split; [reflexivity|].
        split; [|split; [exact I|cbn [n_len]; rewrite !app_length; cbn; lia]].
        rewrite <- Pe, <- app_assoc. apply Permutation_app_head. rewrite !addrs_mid, !addrs_e. cbn [e_ptr e_node opt_list app].
        rewrite <- Pn, <- !app_assoc. apply Permutation_app_swap_app.
    + (* in two children *)
      assert (X : exists M, l2 = l ++ c :: M /\ r = M ++ c2 :: r2).
      { assert (Lt : (length l < length l2)%nat) by lia. clear - E E2 Lt. rewrite E in E2. clear E.
        revert l2 Lt E2; induction l as [|a l IHl]; intros l2 Lt E2; destruct l2 as [|b l2]; cbn in Lt; try lia; cbn in E2; injection E2 as -> E2.
        - exists l2. auto.
        - destruct (IHl l2 ltac:(lia) E2) as (M & -> & ->). exists M. auto. }
      destruct X as (M & -> & ->). clear E2.
      apply (Parts l [c] M [c2] r2).
      * exact E.
      * right. exists c. auto.
      * right. exists c2. split; [reflexivity|]. auto.
      * apply D_above. exact Ab.
      * rewrite flats_app in Aa. apply Forall_app in Aa. apply D_all; [apply Aa|].
        rewrite flats_app, flats_cons in Be. apply Forall_app in Be. destruct Be as [_ Be]. apply Forall_app in Be. apply Be.
      * apply D_below. exact Bo.
  - destruct Cs as (l & c & r & E & -> & Ab & Aa). destruct Ce as (Lj & Be & Bo).
    set (M := skipn (S (length l)) (firstn j cs)).
    assert (Er : r = M ++ skipn j cs).
    { assert (Q : skipn (S (length l)) cs = r) by (rewrite E; apply skipn_mid). rewrite <- Q.
      rewrite <- (firstn_skipn j cs) at 1. rewrite skipn_app, firstn_length_le by lia.
      replace (S (length l) - j)%nat with O by lia. reflexivity. }
    assert (Ej : firstn j cs = l ++ c :: M).
    { assert (Q : firstn (S (length l)) (firstn j cs) = l ++ [c]).
      { rewrite firstn_firstn, Nat.min_l by lia. rewrite E. replace (S (length l)) with (length (l ++ [c])) by (rewrite app_length; cbn; lia).
        change (c :: r) with ([c] ++ r). rewrite app_assoc. apply firstn_mid. }
      rewrite <- (firstn_skipn (S (length l)) (firstn j cs)), Q, <- app_assoc. reflexivity. }
    assert (Lm : length (l ++ c :: M) = j) by (rewrite <- Ej; apply firstn_length_le; exact Lj).
    apply (Parts l [c] M [] (skipn j cs)).
    + cbn [app]. rewrite <- Er. exact E.
    + right. exists c. auto.
    + left. split; [reflexivity|]. split; [reflexivity|]. cbn [app]. exact Lm.
    + apply D_above. exact Ab.
    + rewrite Er, flats_app in Aa. apply Forall_app in Aa. apply D_all; [apply Aa|].
      rewrite Ej, flats_app, flats_cons in Be. apply Forall_app in Be. destruct Be as [_ Be]. apply Forall_app in Be. apply Be.
    + apply D_below. exact Bo.
Qed.
End Step.

Lemma rd_pass1_spec h : forall lo hi ts n, good h lo hi ts (txg + 1) n -> ts <= txg -> nonempty n ->
  p1_post h lo hi ts n (rd_pass1 lim txg s e h hi n).
Proof.
  induction h as [|h IH]; intros lo hi ts n G T N; destruct n as [l|cs]; try (cbn in G; tauto).
  - cbn [rd_pass1]. unfold leaf_range_delete. rewrite (proj1 (proper_no_panic _ _ PR)).
    eexists _, _, _. split; [reflexivity|]. destruct G as [Z F]. split.
    { split.
      - clear - Z. induction l as [|[k v] l IH]; [exact Z|]. cbn. apply zm_ok_cons in Z. destruct Z as [Z F].
        destruct (negb _); [|auto]. apply zm_ok_cons. split; [auto|]. apply Forall_forall. intros p I. apply filter_In in I.
        rewrite Forall_forall in F. apply F, I.
      - apply Forall_forall. intros p I. apply filter_In in I. rewrite Forall_forall in F. apply F, I. }
    split; [reflexivity|]. split; [reflexivity|]. split; [exact I|]. cbn. clear. induction l as [|a l IHl]; cbn; [lia|].
    destruct (negb _); cbn; lia.
  - apply pass1_node; [|exact G|exact T|destruct cs; [destruct N|discriminate]].
    intros lo0 hi0 ts0 n0 G0 T0 L0. apply IH; [exact G0|exact T0|]. destruct n0 as [|[|]]; cbn in *; try exact I. lia.
Qed.
End Pass1.

End RD.
