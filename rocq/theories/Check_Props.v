(** C107: what the consistency check says. *)
From Verif Require Import Common ZMap FSM_Model Tree_Model TreeRD_Model Tree_Inv Tree_Proofs Tree_Remove Tree_Range Tree_Flush Tree_Props TreeRD_Props
  Check_Model.
From Coq Require Import Sorting.Sorted.

(** * Specification *)

Section Spec.
Context {V : Type}.

(** the keys of a subtree from left to right *)
Fixpoint keys_of (n : node V) : list Z :=
  match n with
  | Leaf l => map fst l
  | Int cs => flat_map (fun e => match e with Elem _ _ _ _ _ c => keys_of c end) cs
  end.

(** no node but the root is too small *)
Definition thick (lim : limits) (n : node V) : Prop :=
  forall d n', below (S d) n n' -> (n_min lim n' <= n_len n')%nat.

(** items of a leaf are kept in a map *)
Definition leaves_sorted (n : node V) : Prop := forall d l, below d n (Leaf l) -> StronglySorted Z.lt (map fst l).

(** what the check is to establish of the nodes below *)
Record sound (lim : limits) (t : tree V) : Prop := Sound {
  sd_root : (n_len (e_node (t_root t)) <= n_max lim (e_node (t_root t)))%nat;
  sd_size : forall d n, below (S d) (e_node (t_root t)) n -> (n_min lim n <= n_len n <= n_max lim n)%nat;
  sd_order : StronglySorted Z.le (keys_of (e_node (t_root t)));
  sd_keys : forall e k, elem_in (e_node (t_root t)) e -> key_in (e_node e) k -> e_key e <= k;
  sd_txgs : forall e cs c, holds t e -> e_node e = Int cs -> In c cs -> e_ts e <= e_ts c /\ e_te c <= e_te e }.

End Spec.

(** * Trees that operations make *)

Lemma max_te_some {V} (cs : list (elem V)) : cs <> [] -> exists m, max_te cs = Some m.
Proof. destruct cs; [congruence|]. cbn. eauto. Qed.
Lemma max_te_spec {V} (cs : list (elem V)) m : max_te cs = Some m -> Forall (fun e => e_te e <= m) cs /\ exists e, In e cs /\ e_te e = m.
Proof.
  revert m; induction cs as [|e r IH]; intros m E; [discriminate|]. cbn [max_te] in E. injection E as E. destruct (max_te r) as [x|] eqn:X.
  - destruct (IH _ eq_refl) as [F (c & I & Q)]. split.
    + constructor; [lia|]. eapply Forall_impl; [|exact F]. cbn. intros; lia.
    + destruct (Z.max_spec (e_te e) x) as [[? ?]|[? ?]]; [exists c; split; [now right|lia]|exists e; split; [now left|lia]].
  - destruct r; [|discriminate]. subst. split; [constructor; [lia|constructor]|]. exists e. split; [now left|reflexivity].
Qed.

Section Made.
Context {V : Type}.
Context (lim : limits) (mi ml : nat).
Context (Hmi : (1 <= mi)%nat) (Hml : (1 <= ml)%nat).
Notation good := (@good V lim mi ml).
Notation egood := (@egood V lim mi ml).

Definition ethick (e : elem V) : Prop := (n_min lim (e_node e) <= n_len (e_node e))%nat /\ thick lim (e_node e).

Lemma thick_Int cs : thick lim (Int cs) <-> Forall ethick cs.
Proof.
  split.
  - intros T. apply Forall_forall. intros e I. split.
    + apply (T O). econstructor; [exact I|constructor].
    + intros d n' B. apply (T (S d)). econstructor; eauto.
  - intros F d n' B. rewrite Forall_forall in F. inversion B as [|? ? c ? I B']; subst. destruct (F _ I) as [A1 A2].
    destruct d; [inversion B'; subst; exact A1|]. eapply A2; eauto.
Qed.
Lemma thick_Leaf (l : list (Z * V)) : thick lim (Leaf l).
Proof. intros d n' B. inversion B. Qed.

Definition rok (h : nat) : Prop := forall lo hi ts te cs, good (S h) lo hi ts te (Int cs) -> 0 <= lo -> cs <> [] ->
  exists b f l ts' te', check_r lim (Int cs) = Some (b, (f, l), (ts', te')) /\
    lo <= f /\ f <= l /\ lt_opt l hi /\ ts <= ts' /\ te' <= te /\ (b = true <-> thick lim (Int cs)).

Lemma good_elem h e nx : (match h with O => True | S h' => rok h' end) -> egood h e nx -> 0 <= e_key e ->
  exists b s l, check_elem lim (check_r lim) e = Some (b, (s, l)) /\ e_key e <= s /\ s <= l /\ lt_opt l nx /\ (b = true <-> ethick e).
Proof.
  intros R (K & T & L & _ & G) P. destruct e as [key ts te p m c]. unfold ethick. cbn [e_key e_ts e_te e_node] in *. unfold check_elem.
  destruct h as [|h], c as [l|cs]; try (destruct G; fail).
  - cbn [Tree_Inv.good] in G. destruct G as [Z F]. cbn [len_ok] in L. destruct l as [|[k v] l]; [cbn in L; lia|].
    destruct (leaf_last_ok _ Z ltac:(discriminate)) as (k' & E & [Lk (q & I & Q)]). rewrite E.
    unfold check_node. cbn [n_key n_len n_min n_max negb andb obind]. inversion F as [|? ? [F1 F2] F']; subst. cbn [fst] in *.
    inversion Lk as [|? ? Lk1 Lk2]; subst. cbn [fst] in *.
    assert (Hq : lt_opt (fst q) nx) by (rewrite Forall_forall in F; apply (F q I)).
    replace (k <? key) with false by lia. replace ((max_leaf lim <? _)%nat) with false by (symmetry; apply Nat.ltb_ge; cbn in *; lia).
    cbn [fst snd]. rewrite !Z.ltb_irrefl. cbn [orb].
    eexists _, _, _. split; [reflexivity|]. do 3 (split; [assumption|]).
    destruct (Nat.ltb_spec (length ((k, v) :: l)) (min_leaf lim)); cbn [andb].
    + split; [discriminate|]. lia.
    + split; auto. intros _. split; [lia|apply thick_Leaf].
  - cbn [len_ok] in L. assert (Ne : cs <> []) by (intros ->; cbn in L; lia).
    destruct (R _ _ _ _ _ G P Ne) as (b & f & l & ts' & te' & E & A1 & A2 & A3 & A4 & A5 & A6). rewrite E.
    destruct cs as [|c0 r]; [congruence|]. assert (K0 : key <= e_key c0). { apply good_S in G. destruct G as [[? _] _]. assumption. }
    unfold check_node. cbn [n_key n_len n_min n_max negb andb obind].
    replace (e_key c0 <? key) with false by lia. replace ((max_int lim <? _)%nat) with false by (symmetry; apply Nat.ltb_ge; cbn in *; lia).
    cbn [fst snd]. replace (ts' <? ts) with false by lia. replace (te <? te') with false by lia. cbn [orb].
    eexists _, _, _. split; [reflexivity|]. split; [lia|]. split; [lia|]. split; [exact A3|].
    destruct (Nat.ltb_spec (length (c0 :: r)) (min_int lim)); cbn [andb].
    + rewrite andb_false_r. split; [discriminate|]. lia.
    + rewrite andb_true_r. rewrite A6. split; [|tauto]. intros; split; [lia|assumption].
Qed.

Lemma good_children h : (match h with O => True | S h' => rok h' end) -> forall cs lo hi last, chain (egood h) lo hi cs -> 0 <= lo -> last <= lo ->
  exists r l, mapm (check_elem lim (check_r lim)) cs = Some r /\ sorted_from last r = (true, l) /\
    (forallb fst r = true <-> Forall ethick cs) /\
    (cs = [] -> l = last) /\ (cs <> [] -> exists x, nth_error r 0 = Some x /\ lo <= fst (snd x) <= l /\ lt_opt l hi).
Proof.
  intros R. induction cs as [|e cs IH]; intros lo hi last C P L.
  - exists [], last. cbn. split; [reflexivity|]. split; [reflexivity|]. split; [split; auto|]. split; [auto|congruence].
  - destruct C as (C1 & C2 & C3). destruct (good_elem h e _ R C2 ltac:(lia)) as (b & s & l & E & B1 & B2 & B3 & B4).
    assert (C4 : chain (egood h) (l + 1) hi cs) by (refine (chain_relo _ _ _ _ _ C3 _); exact B3).
    destruct (IH (l + 1) hi l C4 ltac:(lia) ltac:(lia)) as (r & l' & D1 & D2 & D3 & D4 & D5).
    exists ((b, (s, l)) :: r), l'. cbn [mapm]. rewrite E. cbn [obind]. unfold mapm in D1 |- *. rewrite D1. split; [reflexivity|].
    cbn [sorted_from]. replace (s <? last) with false by lia. split; [exact D2|].
    cbn [forallb fst]. rewrite andb_true_iff, D3, B4, Forall_cons_iff. split; [tauto|]. split; [discriminate|].
    intros _. eexists. split; [reflexivity|]. cbn [fst snd]. destruct cs as [|e' cs].
    + rewrite (D4 eq_refl). split; [lia|exact B3].
    + destruct (D5 ltac:(discriminate)) as (x & _ & X1 & X2). split; [lia|exact X2].
Qed.

Lemma good_step h : (match h with O => True | S h' => rok h' end) -> rok h.
Proof.
  intros R lo hi ts te cs G P Ne. apply good_S in G. destruct G as [C F].
  destruct (good_children h R cs lo hi 0 C P P) as (r & l & D1 & D2 & D3 & _ & D5).
  destruct (D5 Ne) as (x & X1 & X2 & X3). destruct (min_ts_some _ Ne) as [s S]. destruct (max_te_some _ Ne) as [z Z].
  cbn [check_r]. rewrite S, Z. cbn [obind]. rewrite D1. cbn [obind]. rewrite X1. cbn [obind]. rewrite D2.
  eexists _, _, _, _, _. split; [reflexivity|]. rewrite andb_true_r, D3, thick_Int.
  destruct (proj2 (min_ts_spec _ _ S)) as (e1 & I1 & <-). destruct (proj2 (max_te_spec _ _ Z)) as (e2 & I2 & <-).
  rewrite Forall_forall in F. destruct (F _ I1), (F _ I2). do 2 (split; [lia|]). split; [exact X3|]. do 2 (split; [assumption|]). reflexivity.
Qed.
Lemma good_check_r h : rok h.
Proof. induction h; apply good_step; [exact I|assumption]. Qed.

Lemma tgood_check T (t : tree V) : tgood lim mi ml T t ->
  exists b, check lim t = Some b /\ (b = true <-> thick lim (e_node (t_root t))).
Proof.
  unfold tgood, check. destruct t as [[rk rs rt rp rm rn] h]. cbn [t_root t_h e_key e_node e_ts e_te].
  intros (_ & G & _ & _ & L & N & _). unfold check_node. cbn [negb andb obind].
  replace ((n_max lim rn <? n_len rn)%nat) with false by (symmetry; apply Nat.ltb_ge; exact L). cbn [andb obind].
  destruct h as [|h].
  - destruct rn as [l|]; [|destruct G]. exists true. split; [reflexivity|]. split; auto. intros _. apply thick_Leaf.
  - destruct rn as [l|cs]; [destruct G|]. assert (Ne : cs <> []) by (destruct cs; [destruct N|discriminate]).
    destruct (good_check_r h _ _ _ _ _ G ltac:(lia) Ne) as (b & f & l & ts' & te' & E & _ & _ & _ & A4 & A5 & A6). rewrite E. cbn [obind fst snd].
    replace (ts' <? rs) with false by lia. replace (rt <? te') with false by lia. cbn [orb]. eauto.
Qed.
End Made.

(** After any history without range deletions the check passes. *)
Theorem C107_passes {V} lim (s : st V) m : legal_limits lim -> after lim s m -> check lim (s_tree s) = Some true.
Proof.
  intros L A. pose proof (fanout lim L s m A) as Fa. apply (after_inv lim L) in A. destruct A as (nx & G & _).
  destruct L as (?&?&?&?). destruct (tgood_check lim (min_int lim) (min_leaf lim) ltac:(lia) ltac:(lia) _ _ G) as (b & E & B). rewrite E. f_equal. apply B.
  intros d n' Bl. apply (Fa (S d) n' Bl). discriminate.
Qed.

(** With range deletions it does not panic, and complains exactly of nodes that are too small. *)
Theorem C107_after_range_deletions {V} lim (s : st V) m : legal_limits lim -> xafter lim s m ->
  exists b, check lim (s_tree s) = Some b /\ (b = true <-> thick lim (e_node (t_root (s_tree s)))).
Proof.
  intros L A. apply (xafter_inv lim L) in A. destruct A as (nx & _ & G & _). exact (tgood_check lim 1 1 ltac:(lia) ltac:(lia) _ _ G).
Qed.

(** * Trees that pass *)

Section Pass.
Context {V : Type}.
Context (lim : limits).

Fixpoint node_ind2 (P : node V -> Prop) (HL : forall l, P (Leaf l)) (HI : forall cs, Forall (fun e => P (e_node e)) cs -> P (Int cs)) (n : node V) : P n :=
  match n with
  | Leaf l => HL l
  | Int cs => HI cs ((fix go cs := match cs return Forall (fun e => P (e_node e)) cs with
                                   | [] => Forall_nil _
                                   | Elem k s t p m c :: r => Forall_cons (Elem k s t p m c) (node_ind2 P HL HI c) (go r)
                                   end) cs)
  end.

Definition nested (n : node V) : Prop :=
  forall e cs c, elem_in n e -> e_node e = Int cs -> In c cs -> e_ts e <= e_ts c /\ e_te c <= e_te e.

(** what passing says of the nodes below [n] whose keys are between [f] and [l] *)
Record psd (n : node V) (f l : Z) : Prop := Psd {
  ps_size : forall d n', below (S d) n n' -> (n_min lim n' <= n_len n' <= n_max lim n')%nat;
  ps_order : StronglySorted Z.le (keys_of n);
  ps_range : Forall (fun k => f <= k <= l) (keys_of n);
  ps_keys : forall e k, elem_in n e -> key_in (e_node e) k -> e_key e <= k;
  ps_txgs : nested n }.

Definition psd_r (n : node V) : Prop := forall b f l ts te, leaves_sorted n -> check_r lim n = Some (b, (f, l), (ts, te)) -> b = true ->
  psd n f l /\ f <= l /\ (forall k, n_key n = Some k -> k <= f) /\
  match n with Leaf _ => False | Int cs => Forall (fun e => ts <= e_ts e /\ e_te e <= te) cs end.

Lemma key_in_keys : forall n k, @key_in V n k -> In k (keys_of n).
Proof.
  intros n k H. induction H as [l k v I|cs c k I K IH].
  - cbn. apply in_map_iff. exists (k, v). auto.
  - cbn [keys_of]. apply in_flat_map. exists c. split; [exact I|]. destruct c; exact IH.
Qed.

Definition psd_e (e : elem V) (s l : Z) : Prop :=
  psd (e_node e) s l /\ s <= l /\ e_key e <= s /\ (n_min lim (e_node e) <= n_len (e_node e) <= n_max lim (e_node e))%nat /\
  (forall cs c, e_node e = Int cs -> In c cs -> e_ts e <= e_ts c /\ e_te c <= e_te e).

Lemma check_node_true key (n : node V) : check_node lim key false n = Some true ->
  (n_min lim n <= n_len n <= n_max lim n)%nat /\ exists k, n_key n = Some k /\ key <= k.
Proof.
  unfold check_node. cbn [negb andb]. destruct (n_key n) as [k|]; [|discriminate]. cbn [obind]. intros E.
  destruct (Nat.ltb_spec (n_len n) (n_min lim n)); [discriminate|]. destruct (Nat.ltb_spec (n_max lim n) (n_len n)); [discriminate|].
  destruct (Z.ltb_spec k key); [discriminate|]. split; [lia|]. eauto.
Qed.

Lemma sorted_lt_le l : StronglySorted Z.lt l -> StronglySorted Z.le l.
Proof. induction 1; constructor; auto. eapply Forall_impl; [|eassumption]. cbn; intros; lia. Qed.

Lemma elem_pass e b s l : psd_r (e_node e) -> leaves_sorted (e_node e) ->
  check_elem lim (check_r lim) e = Some (b, (s, l)) -> b = true -> psd_e e s l.
Proof.
  destruct e as [key ts te p m c]. unfold psd_e. cbn [e_node e_key e_ts e_te]. intros R S E ->. unfold check_elem in E.
  destruct (check_node lim key false c) as [d|] eqn:D; [|discriminate]. cbn [obind] in E. destruct c as [it|cs].
  - destruct (n_key (Leaf it)) as [k|] eqn:K; [|discriminate]. cbn [obind] in E. destruct (leaf_last it) as [k'|] eqn:Lk; [|discriminate]. cbn [obind fst snd] in E.
    rewrite !Z.ltb_irrefl in E. cbn [orb] in E. injection E as -> -> ->.
    destruct (check_node_true _ _ D) as [Sz (k0 & K0 & Le)]. rewrite K in K0. injection K0 as <-.
    assert (Z : zm_ok it) by (apply (S O); constructor). assert (Ne : it <> []) by (intros ->; discriminate).
    destruct (leaf_last_ok _ Z Ne) as (l0 & E0 & [F (q & Iq & Q)]). rewrite Lk in E0. injection E0 as <-.
    destruct it as [|[k1 v1] it]; [congruence|]. cbn in K. injection K as ->.
    assert (Ra : Forall (fun k => s <= k <= l) (keys_of (Leaf ((s, v1) :: it)))).
    { cbn [keys_of]. apply Forall_map. apply Forall_forall. intros [a b] I. rewrite Forall_forall in F. specialize (F _ I). cbn in F |- *.
      split; [|exact F]. unfold zm_ok in Z. cbn in Z. apply StronglySorted_inv in Z. destruct Z as [_ Z]. rewrite Forall_forall in Z.
      destruct I as [[= <- _]|I]; [lia|]. assert (s < a) by (apply Z, in_map_iff; exists (a, b); auto). lia. }
    split; [|split; [|split; [exact Le|split; [exact Sz|discriminate]]]].
    + constructor.
      * intros d n' B. inversion B.
      * apply sorted_lt_le, Z.
      * exact Ra.
      * intros e k I. inversion I.
      * intros e cs c I. inversion I.
    + cbn in Ra. inversion Ra; lia.
  - destruct (check_r lim (Int cs)) as [[[b [f l0]] [ts' te']]|] eqn:C; [|discriminate]. cbn [obind fst snd] in E.
    destruct (Z.ltb_spec ts' ts); [discriminate|]. destruct (Z.ltb_spec te te'); [discriminate|]. cbn [orb] in E. injection E as B -> ->.
    apply andb_true_iff in B. destruct B as [-> ->]. destruct (R _ _ _ _ _ S C eq_refl) as ([P1 P2 P3 P4 P5] & A1 & A2 & A3).
    destruct (check_node_true _ _ D) as [Sz (k0 & K0 & Le)]. specialize (A2 _ K0).
    split; [|split; [lia|split; [lia|split; [exact Sz|]]]].
    + constructor; auto. eapply Forall_impl; [|exact P3]. cbn. intros; lia.
    + intros cs0 c [= <-] I. rewrite Forall_forall in A3. specialize (A3 _ I). cbn in A3. lia.
Qed.

Lemma SS_app_le (a b : list Z) x : StronglySorted Z.le a -> StronglySorted Z.le b -> Forall (fun k => k <= x) a -> Forall (fun k => x <= k) b ->
  StronglySorted Z.le (a ++ b).
Proof.
  induction 1 as [|y a Sa IH Fy]; cbn [app]; intros Sb Fa Fb; [exact Sb|]. inversion Fa; subst. constructor; [auto|].
  apply Forall_app. split; [exact Fy|]. eapply Forall_impl; [|exact Fb]. cbn. intros; lia.
Qed.

Lemma keys_cons k ts te p m c (cs : list (elem V)) : keys_of (Int (Elem k ts te p m c :: cs)) = keys_of c ++ keys_of (Int cs).
Proof. reflexivity. Qed.

Lemma children_pass : forall cs r last l, Forall (fun e => psd_r (e_node e)) cs -> leaves_sorted (Int cs) ->
  mapm (check_elem lim (check_r lim)) cs = Some r -> sorted_from last r = (true, l) -> forallb fst r = true ->
  psd (Int cs) last l /\ last <= l /\
  Forall (fun k => match nth_error r 0 with Some x => fst (snd x) <= k | None => True end) (keys_of (Int cs)) /\
  match cs, nth_error r 0 with
  | [], _ => True
  | e :: _, Some x => e_key e <= fst (snd x) <= l
  | _, None => False
  end.
Proof.
  induction cs as [|e cs IH]; intros r last l R S E So Fo.
  - cbn in E. injection E as <-. cbn in So. injection So as <-. split; [|cbn; auto with zarith]. constructor.
    + intros d n' B. inversion B; subst; contradiction.
    + constructor.
    + constructor.
    + intros e k I. inversion I; subst; contradiction.
    + intros e cs c I. inversion I; subst; contradiction.
  - inversion R as [|? ? Re Rs]; subst. cbn [mapm] in E. destruct (check_elem lim (check_r lim) e) as [[b [s z]]|] eqn:Ee; [|discriminate]. cbn [obind] in E.
    destruct (mapm (check_elem lim (check_r lim)) cs) as [r'|] eqn:Er; [|discriminate].
    cbn [obind] in E. injection E as <-. cbn [sorted_from] in So. destruct (Z.ltb_spec s last); [discriminate|].
    cbn [forallb fst] in Fo. apply andb_true_iff in Fo. destruct Fo as [Fb Fo].
    assert (Se : leaves_sorted (e_node e)). { intros d it B. apply (S (Datatypes.S d)). econstructor; [now left|exact B]. }
    assert (Ss : leaves_sorted (Int cs)). { intros d it B. destruct d; [inversion B|]. apply (S (Datatypes.S d)). inversion B; subst. econstructor; [right; eassumption|assumption]. }
    destruct (elem_pass _ _ _ _ Re Se Ee Fb) as ([P1 P2 P3 P4 P5] & A1 & A2 & A3 & A4).
    destruct (IH _ _ _ Rs Ss eq_refl So Fo) as ([Q1 Q2 Q3 Q4 Q5] & B1 & _ & _).
    assert (Ka : keys_of (Int (e :: cs)) = keys_of (e_node e) ++ keys_of (Int cs)) by (destruct e; apply keys_cons).
    split; [|split; [lia|split]].
    + constructor.
      * intros d n' B. inversion B as [|? ? c ? I B']; subst. destruct I as [<-|I].
        -- destruct d; [inversion B'; subst; exact A3|]. eapply P1; eauto.
        -- eapply Q1. econstructor; eauto.
      * rewrite Ka. apply SS_app_le with (x := z); auto; eapply Forall_impl; try eassumption; cbn; intros; lia.
      * rewrite Ka. apply Forall_app. split; eapply Forall_impl; try eassumption; cbn; intros; lia.
      * intros e0 k I K. inversion I as [? ? I'|? c ? I' I2]; subst.
        -- destruct I' as [<-|I']; [|eapply Q4; [apply elem_here; exact I'|exact K]].
           apply key_in_keys in K. rewrite Forall_forall in P3. specialize (P3 _ K). cbn in P3. lia.
        -- destruct I' as [<-|I']; [eapply P4; eauto|]. eapply Q4; [eapply elem_below; eauto|exact K].
      * intros e0 cs0 c0 I K J. inversion I as [? ? I'|? c ? I' I2]; subst.
        -- destruct I' as [<-|I']; [eapply A4; eauto|eapply Q5; [apply elem_here; exact I'|exact K|exact J]].
        -- destruct I' as [<-|I']; [eapply P5; eauto|]. eapply Q5; [eapply elem_below; eauto|exact K|exact J].
    + cbn [nth_error fst snd]. rewrite Ka. apply Forall_app. split; eapply Forall_impl; try eassumption; cbn; intros; lia.
    + cbn [nth_error fst snd]. lia.
Qed.

Lemma check_r_pass : forall n, psd_r n.
Proof.
  apply node_ind2; [discriminate|]. intros cs R b f l ts te S E ->. cbn [check_r] in E.
  destruct (min_ts cs) as [a|] eqn:A; [|discriminate]. destruct (max_te cs) as [z|] eqn:Z; [|discriminate]. cbn [obind] in E.
  destruct (mapm (check_elem lim (check_r lim)) cs) as [r|] eqn:M; [|discriminate]. cbn [obind] in E.
  destruct (nth_error r 0) as [x|] eqn:X; [|discriminate]. cbn [obind] in E. destruct (sorted_from 0 r) as [so la] eqn:So.
  injection E as B <- -> -> ->. apply andb_true_iff in B. destruct B as [B ->].
  destruct (children_pass _ _ _ _ R S M So B) as ([Q1 Q2 Q3 Q4 Q5] & B1 & B2 & B3). rewrite X in B2, B3.
  destruct cs as [|e cs]; [discriminate|]. split; [|split; [lia|split]].
  - constructor; auto. apply Forall_forall. intros k I. rewrite Forall_forall in B2, Q3. specialize (B2 _ I). specialize (Q3 _ I). cbn in *. lia.
  - intros k [= <-]. lia.
  - apply min_ts_spec in A. apply max_te_spec in Z. destruct A as [A _], Z as [Z _]. rewrite Forall_forall in *. intros c I. split; [apply A|apply Z]; exact I.
Qed.

(** [Int] roots of trees of height one are not looked at: [C107_height_refuted] *)
Theorem C107_sound (t : tree V) : check lim t = Some true -> leaves_sorted (e_node (t_root t)) ->
  (t_h t = O -> exists l, e_node (t_root t) = Leaf l) -> sound lim t.
Proof.
  destruct t as [[rk rs rt rp rm rn] h]. unfold check. cbn [t_root t_h e_key e_node e_ts e_te]. intros E S H.
  unfold check_node in E. cbn [negb andb obind] in E. destruct (Nat.ltb_spec (n_max lim rn) (n_len rn)) as [L|L]; cbn [andb obind] in E.
  { destruct h; [discriminate|]. destruct (check_r lim rn) as [[[? ?] ?]|]; [|discriminate]. cbn [obind] in E. destruct (_ || _); discriminate. }
  destruct h as [|h].
  - destruct (H eq_refl) as [l ->]. constructor; cbn [t_root e_node].
    + exact L.
    + intros d n B. inversion B.
    + apply sorted_lt_le, (S O). constructor.
    + intros e k I. inversion I.
    + intros e cs c [->|I] Q; [discriminate Q|inversion I].
  - destruct (check_r lim rn) as [[[b [f l]] [ts te]]|] eqn:R; [|discriminate]. cbn [obind fst snd] in E.
    destruct (Z.ltb_spec ts rs); [discriminate|]. destruct (Z.ltb_spec rt te); [discriminate|]. cbn [orb] in E. injection E as ->.
    destruct (check_r_pass _ _ _ _ _ _ S R eq_refl) as ([P1 P2 P3 P4 P5] & _ & _ & A). destruct rn as [|cs0]; [destruct A|].
    constructor; cbn [t_root e_node]; auto.
    intros e cs c [->|I] Q J; [|eapply P5; eauto]. cbn [t_root e_node e_ts e_te] in *. injection Q as <-. rewrite Forall_forall in A. specialize (A _ J). lia.
Qed.

(** An empty node, which an interrupted write or a bug could leave behind, is not reported: the check panics. *)
Lemma check_r_empty : forall (n : node V) b ks ts e, check_r lim n = Some (b, ks, ts) -> elem_in n e -> n_len (e_node e) <> O.
Proof.
  intros n b ks ts e E I. revert b ks ts E. induction I as [cs e I|cs c e I I2 IH]; intros b ks ts E; cbn [check_r] in E.
  all: destruct (min_ts cs) as [a|] eqn:A; [|discriminate]; destruct (max_te cs) as [z|] eqn:Z; [|discriminate]; cbn [obind] in E.
  all: destruct (mapm (check_elem lim (check_r lim)) cs) as [r|] eqn:M; [|discriminate]; clear E A Z.
  - assert (X : exists y, check_elem lim (check_r lim) e = Some y).
    { revert r M. induction cs as [|c cs IH]; intros r M; [destruct I|]. cbn [mapm] in M. destruct (check_elem lim (check_r lim) c) as [y|] eqn:Y; [|discriminate].
      cbn [obind] in M. destruct I as [<-|I]; [eauto|]. 
      destruct (mapm (check_elem lim (check_r lim)) cs) as [r'|]; [|discriminate]. eapply IH; eauto. }
    destruct X as [y X]. destruct e as [key s t p m n]. cbn [e_node]. unfold check_elem, check_node in X. intros E.
    destruct n as [[|]|[|]]; cbn in E; try discriminate; cbn [n_key obind] in X; discriminate.
  - assert (X : exists y, check_elem lim (check_r lim) c = Some y).
    { clear IH I2. revert r M. induction cs as [|c' cs IH]; intros r M; [destruct I|]. cbn [mapm] in M. destruct (check_elem lim (check_r lim) c') as [y|] eqn:Y; [|discriminate].
      cbn [obind] in M. destruct I as [<-|I]; [eauto|]. 
      destruct (mapm (check_elem lim (check_r lim)) cs) as [r'|]; [|discriminate]. eapply IH; eauto. }
    destruct X as [y X]. destruct c as [key s t p m n]. cbn [e_node] in *. unfold check_elem in X.
    destruct (check_node lim key false n); [|discriminate]. cbn [obind] in X. destruct n as [l|cs']; [inversion I2|].
    destruct (check_r lim (Int cs')) as [[[b' k'] t']|]; [|discriminate]. eapply IH; reflexivity.
Qed.

Theorem C107_empty_node_refuted (t : tree V) e : t_h t <> O -> elem_in (e_node (t_root t)) e -> n_len (e_node e) = O -> check lim t = None.
Proof.
  intros H I L. unfold check. destruct (check_node _ _ _ _) as [b0|]; [|reflexivity]. cbn [obind]. destruct (t_h t); [congruence|].
  destruct (check_r lim (e_node (t_root t))) as [[[b ks] ts]|] eqn:E; [|reflexivity]. destruct (check_r_empty _ _ _ _ _ E I L).
Qed.
End Pass.

(** * What passes although it should not *)

Definition lims27 := Limits 2 7 2 8.
Definition lf (a b : Z) : node Z := Leaf (map (fun k => (k, k * 10)) (zrange a b)).
Definition two_leaves (k : Z) (a b c d : Z) : tree Z :=
  Tree (Elem 0 1 3 None false (Int [Elem 0 1 2 None false (lf a b); Elem k 2 3 None false (lf c d)])) 1.

Lemma leaves_sorted_Leaf {V} (l : list (Z * V)) : StronglySorted Z.lt (map fst l) -> leaves_sorted (Leaf l).
Proof. intros S d l' B. inversion B; subst. exact S. Qed.
Lemma leaves_sorted_Int {V} (cs : list (elem V)) : Forall (fun e => leaves_sorted (e_node e)) cs -> leaves_sorted (Int cs).
Proof. intros F d l B. inversion B as [|? ? c ? I B']; subst. rewrite Forall_forall in F. eapply F; eauto. Qed.
Ltac leaves :=
  match goal with |- leaves_sorted ?n => let n' := eval vm_compute in n in change (leaves_sorted n') end;
  repeat (apply leaves_sorted_Int; repeat apply Forall_cons; try apply Forall_nil; cbn [e_node]);
  apply leaves_sorted_Leaf; cbn [map fst]; repeat constructor.

(** a sound tree of two levels, as the hypotheses of [C107_sound] ask for *)
Example C107_sound_example : let t := two_leaves 8 0 8 8 12 in
  check lims27 t = Some true /\ leaves_sorted (e_node (t_root t)) /\ (t_h t = O -> exists l, e_node (t_root t) = Leaf l) /\
  keys_of (e_node (t_root t)) = zrange 0 12.
Proof. cbv zeta. split; [reflexivity|]. split; [leaves|]. split; [discriminate|reflexivity]. Qed.
(** each of the faults it is meant to find *)
Example C107_faults_found :
  check lims27 (two_leaves 8 0 8 8 9) = Some false /\ check lims27 (two_leaves 8 0 9 9 12) = Some false /\
  check lims27 (two_leaves 9 0 8 8 12) = Some false /\ check lims27 (two_leaves 4 0 8 5 12) = Some false /\
  check lims27 (Tree (Elem 0 2 3 None false (e_node (t_root (two_leaves 8 0 8 8 12)))) 1) = Some false /\
  check lims27 (Tree (Elem 0 1 2 None false (e_node (t_root (two_leaves 8 0 8 8 12)))) 1) = Some false.
Proof. repeat split; reflexivity. Qed.

(** A key is stored but lookups do not find it: what was recorded of a leaf is not compared with its left neighbour. *)
Theorem C107_lost_key_refuted : exists lim (t : tree Z) k, legal_limits lim /\ check lim t = Some true /\ leaves_sorted (e_node (t_root t)) /\
  key_in (e_node (t_root t)) k /\ get t k = Some None.
Proof.
  exists lims27, (two_leaves 5 0 8 8 12), 6. split; [unfold legal_limits; cbn; lia|]. split; [reflexivity|]. split; [leaves|]. split; [|reflexivity].
  apply key_below with (c := Elem 0 1 2 None false (lf 0 8)); [now left|]. apply key_leaf with (v := 60). vm_compute. auto 15.
Qed.

(** A key is stored twice. *)
Theorem C107_twice_refuted : exists lim (t : tree Z), legal_limits lim /\ check lim t = Some true /\ leaves_sorted (e_node (t_root t)) /\
  ~ NoDup (keys_of (e_node (t_root t))).
Proof.
  exists lims27, (two_leaves 4 0 5 4 8). split; [unfold legal_limits; cbn; lia|]. split; [reflexivity|]. split; [leaves|].
  cbn. intros N. do 4 (apply NoDup_cons_iff in N; destruct N as [_ N]). apply NoDup_cons_iff in N. apply (proj1 N). now left.
Qed.

(** Leaves are at different depths; looking up a key panics. *)
Definition uneven : tree Z :=
  Tree (Elem 0 1 3 None false (Int [Elem 0 1 2 None false (lf 0 8); Elem 8 1 3 None false (Int [Elem 8 1 2 None false (lf 8 12); Elem 12 2 3 None false (lf 12 16)])])) 1.
Theorem C107_uneven_refuted : exists lim (t : tree Z) k l l' d d', legal_limits lim /\ check lim t = Some true /\ leaves_sorted (e_node (t_root t)) /\
  below d (e_node (t_root t)) (Leaf l) /\ below d' (e_node (t_root t)) (Leaf l') /\ d <> d' /\ key_in (e_node (t_root t)) k /\ get t k = None.
Proof.
  exists lims27, uneven, 9. eexists _, _, 1%nat, 2%nat. split; [unfold legal_limits; cbn; lia|]. split; [reflexivity|]. split; [leaves|].
  split; [eapply below_child; [now left|apply below_here]|]. split; [eapply below_child; [right; now left|eapply below_child; [now left|apply below_here]]|].
  split; [discriminate|]. split; [|reflexivity].
  eapply key_below; [right; now left|]. eapply key_below; [now left|]. apply key_leaf with (v := 90). vm_compute. auto 15.
Qed.

(** Nothing below the root is looked at if the height says that it is a leaf. *)
Theorem C107_height_refuted {V} lim k s e p m (cs : list (elem V)) : (length cs <= max_int lim)%nat ->
  check lim (Tree (Elem k s e p m (Int cs)) 0) = Some true.
Proof. intros L. unfold check, check_node. cbn [t_root t_h e_key e_node n_len n_max negb andb]. replace ((max_int lim <? length cs)%nat) with false by (symmetry; apply Nat.ltb_ge; exact L). reflexivity. Qed.
Example C107_height_example : (length [Elem 9 7 1 None false (lf 3 1)] <= max_int lims27)%nat.
Proof. cbn. lia. Qed.

(** A healthy pool is reported as damaged: after a range deletion nodes may be too small. *)
Theorem C107_false_alarm_refuted : exists lim (s : st Z) m, legal_limits lim /\ xafter lim s m /\ check lim (s_tree s) = Some false.
Proof.
  set (lim := Limits 2 6 2 6).
  set (xs := map (fun k => Base (Insert false k k)) (zrange 0 78) ++ map (fun k => Base (Remove k)) [45; 46; 32; 33; 14; 15; 16] ++ [RangeDelete (V := Z) (Inc 20) (Exc 34)]).
  set (r := xrun lim (init 0 0) xs).
  exists lim, (match r with Some (s, _) => s | None => init 0 0 end), (fst (xmap_run (fun _ => None) xs)).
  split; [unfold legal_limits; cbn; lia|]. split; [|vm_compute; reflexivity].
  exists 0, 0, xs, (match r with Some (_, v) => v | None => [] end), (snd (xmap_run (fun _ => None) xs)).
  split; [lia|]. split.
  { apply Forall_app. split; [|repeat constructor]. apply Forall_map. apply Forall_forall. intros k Hk. apply in_zrange in Hk. cbn. lia. }
  split; [vm_compute; reflexivity|apply surjective_pairing].
Qed.

(** * The record tables *)

Definition total {A} (f : A -> Z) (l : list A) : Z := fold_right (fun x a => f x + a) 0 l.

Lemma fold_and {A} (f : A -> bool) l b : fold_left (fun p x => p && f x) l b = b && forallb f l.
Proof. revert b; induction l as [|x l IH]; intros b; cbn [fold_left forallb]; [now rewrite andb_true_r|]. rewrite IH. now rewrite andb_assoc. Qed.
Lemma fold_sum {A} (f : A -> Z) l b : fold_left (fun s x => s + f x) l b = b + total f l.
Proof. revert b; induction l as [|x l IH]; intros b; cbn [fold_left total fold_right]; [lia|]. rewrite IH. unfold total. lia. Qed.

(** Every address that the allocation table has is that of the record it names, every record's address is in the
    allocation table, and the space in use is that of records and tables. *)
Theorem C107_ridt alloct ridt rn an used : check_ridt alloct ridt rn an used = true <->
  (forall p r, In (p, r) alloct -> exists en, zm_get r ridt = Some en /\ re_pba en = p) /\
  (forall r en, In (r, en) ridt -> zm_get (re_pba en) alloct <> None) /\
  used = total (fun x => re_asize (snd x)) ridt + total (fun x => x) rn + total (fun x => x) an.
Proof.
  unfold check_ridt. rewrite !fold_and, (fold_sum (fun x => re_asize (snd x))), (fold_sum (fun x => x) rn), (fold_sum (fun x => x) an).
  rewrite !andb_true_iff, Z.eqb_eq, !forallb_forall. cbn [andb]. split.
  - intros [[[_ A] [_ B]] C]. split; [|split; [|lia]].
    + intros p r I. specialize (A _ I). cbn [fst snd] in A. destruct (zm_get r ridt) as [en|]; [|discriminate]. exists en. split; [reflexivity|].
      destruct (Z.eqb_spec (re_pba en) p); [assumption|discriminate].
    + intros r en I. specialize (B _ I). cbn [snd] in B. destruct (zm_get (re_pba en) alloct); congruence.
  - intros (A & B & C). split; [split|lia].
    + split; [reflexivity|]. intros [p r] I. destruct (A _ _ I) as (en & E & P). cbn [fst snd]. rewrite E, P, Z.eqb_refl. reflexivity.
    + split; [reflexivity|]. intros [r en] I. specialize (B _ _ I). cbn [snd]. destruct (zm_get (re_pba en) alloct); congruence.
Qed.

(** If no two records have the same address then the tables are each other's inverses. *)
Theorem C107_ridt_inverse alloct ridt rn an used : zm_ok alloct -> zm_ok ridt ->
  (forall r1 r2 e1 e2, zm_get r1 ridt = Some e1 -> zm_get r2 ridt = Some e2 -> re_pba e1 = re_pba e2 -> r1 = r2) ->
  check_ridt alloct ridt rn an used = true ->
  forall p r, zm_get p alloct = Some r <-> exists en, zm_get r ridt = Some en /\ re_pba en = p.
Proof.
  intros Za Zr D C p r. apply (proj1 (C107_ridt _ _ _ _ _)) in C. destruct C as (A & B & _). split.
  - intros E. apply zm_get_in in E. apply A, E.
  - intros (en & E & <-). pose proof (B _ _ (zm_get_in _ _ _ E)) as N. destruct (zm_get (re_pba en) alloct) as [r'|] eqn:Q; [|congruence].
    f_equal. apply zm_get_in in Q. destruct (A _ _ Q) as (en' & E' & P). eapply D; eauto.
Qed.
Example C107_ridt_example : let alloct := [(100, 2); (200, 1)] in let ridt := [(1, Rentry 200 3 1); (2, Rentry 100 2 1)] in
  zm_ok alloct /\ zm_ok ridt /\ check_ridt alloct ridt [4] [1] 10 = true /\ check_ridt alloct ridt [4] [1] 11 = false /\
  check_ridt [(100, 2)] ridt [4] [1] 10 = false /\ check_ridt alloct [(2, Rentry 100 2 1)] [4] [1] 7 = false.
Proof. cbv zeta. split; [repeat constructor; cbn; lia|]. split; [repeat constructor; cbn; lia|]. repeat split; reflexivity. Qed.

(** Two records that have the same address pass, whatever their reference counts are. *)
Theorem C107_shared_address_refuted : exists alloct ridt rn an used r1 r2 e1 e2, zm_ok alloct /\ zm_ok ridt /\
  check_ridt alloct ridt rn an used = true /\
  r1 <> r2 /\ zm_get r1 ridt = Some e1 /\ zm_get r2 ridt = Some e2 /\ re_pba e1 = re_pba e2 /\ re_refs e1 = 0.
Proof.
  exists [(100, 2)], [(1, Rentry 100 3 0); (2, Rentry 100 3 1)], [], [], 6, 1, 2. eexists _, _.
  split; [repeat constructor|]. split; [repeat constructor; cbn; lia|]. repeat split; try reflexivity. discriminate.
Qed.

(** The whole check passes exactly if every part does; it panics if one does that comes to be run. *)
Theorem C107_whole a r c trees : check_db a r c trees = Some true <->
  a = Some true /\ r = Some true /\ c = Some true /\ Forall (fun o => o = Some true) trees.
Proof.
  assert (F : forall l acc, fold_left (fun acc o => let* passed := acc in let* r := o in Some (r && passed)) l acc = Some true <->
    acc = Some true /\ Forall (fun o => o = Some true) l).
  { induction l as [|o l IH]; intros acc; cbn [fold_left]; [split; [intros ->; auto|tauto]|]. rewrite IH, Forall_cons_iff.
    destruct acc as [[|]|], o as [[|]|]; cbn [obind andb]; intuition congruence. }
  unfold check_db. specialize (F trees (Some true)). destruct a as [a|]; cbn [obind]; [|split; [discriminate|intros [? _]; discriminate]].
  destruct r as [r|]; cbn [obind]; [|split; [discriminate|intros (_ & ? & _); discriminate]].
  destruct c as [c|]; cbn [obind]; [|split; [discriminate|intros (_ & _ & ? & _); discriminate]].
  match goal with |- context [fold_left ?f trees ?x] => destruct (fold_left f trees x) as [f'|] eqn:E end; cbn [obind].
  - split.
    + intros [= Q]. rewrite !andb_true_iff in Q. destruct Q as [[[-> ->] ->] ->]. split; [auto|]. split; [auto|]. split; [auto|]. apply F. reflexivity.
    + intros ([= ->] & [= ->] & [= ->] & G). assert (Q : Some f' = Some true) by (apply F; auto). injection Q as ->. reflexivity.
  - split; [discriminate|]. intros (_ & _ & _ & G). exfalso. assert (Q : None = Some true) by (apply F; auto). discriminate.
Qed.

(** a tree made by operations, for [C107_passes] and [C107_after_range_deletions] *)
Example C107_made_example : exists (s : st Z) vs, run lims27 (init 0 0) (map (fun k => Insert false k k) (zrange 0 30) ++ [Remove 3; Flush; Tick; Insert true 3 4]) = Some (s, vs) /\
  check lims27 (s_tree s) = Some true /\ t_h (s_tree s) = 2%nat.
Proof. eexists _, _. split; [vm_compute; reflexivity|]. split; reflexivity. Qed.
Example C107_empty_example : elem_in (e_node (t_root (two_leaves 8 0 8 8 8))) (Elem 8 2 3 None false (Leaf [])) /\ check lims27 (two_leaves 8 0 8 8 8) = None.
Proof. split; [apply elem_here; right; now left|reflexivity]. Qed.

Print Assumptions C107_passes.
Print Assumptions C107_after_range_deletions.
Print Assumptions C107_sound.
Print Assumptions C107_empty_node_refuted.
Print Assumptions C107_lost_key_refuted.
Print Assumptions C107_twice_refuted.
Print Assumptions C107_uneven_refuted.
Print Assumptions C107_height_refuted.
Print Assumptions C107_false_alarm_refuted.
Print Assumptions C107_ridt.
Print Assumptions C107_ridt_inverse.
Print Assumptions C107_shared_address_refuted.
Print Assumptions C107_whole.
