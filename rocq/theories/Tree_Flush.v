(** * The B-tree: flushing, and listing of addresses *)
From Verif Require Import Common ZMap Tree_Model Tree_Inv Tree_Proofs Tree_Remove.
From Coq Require Import Permutation.

Section Flush.
Context {V : Type}.
Notation elem := (@elem V).
Notation node := (@node V).
Notation tree := (@tree V).
Context (lim : limits) (mi ml : nat).
Context (HL : lims_ok lim mi ml).
Notation good := (@good V lim mi ml).
Notation egood := (@egood V lim mi ml).
Notation len_ok := (@len_ok V lim mi ml).

(** the records on disk below a node: address and contents *)
Fixpoint recs_below (h : nat) (n : node) : list (addr * node) :=
  match h, n with
  | S h', Int cs =>
      flat_map (fun e => (match e_ptr e with Some a => [(a, e_node e)] | None => [] end) ++ recs_below h' (e_node e)) cs
  | _, _ => []
  end.
Definition recs_elem (h : nat) (e : elem) : list (addr * node) :=
  (match e_ptr e with Some a => [(a, e_node e)] | None => [] end) ++ recs_below h (e_node e).
Lemma recs_Int h cs : recs_below (S h) (Int cs) = flat_map (recs_elem h) cs.
Proof. reflexivity. Qed.
Lemma recs_e h (e : elem) :
  recs_elem h e = (match e_ptr e with Some a => [(a, e_node e)] | None => [] end) ++ recs_below h (e_node e).
Proof. reflexivity. Qed.

Lemma recs_addrs h : forall n, map fst (recs_below h n) = addrs_below h n.
Proof.
  induction h as [|h IH]; intros [l|cs]; try reflexivity. cbn [recs_below addrs_below].
  induction cs as [|e r IHr]; [reflexivity|]. cbn [flat_map]. rewrite !map_app, IHr, IH. destruct (e_ptr e); reflexivity.
Qed.
Lemma recs_addrs_e h e : map fst (recs_elem h e) = addrs_elem h e.
Proof. rewrite recs_e, map_app, recs_addrs. unfold addrs_elem. destruct (e_ptr e); reflexivity. Qed.

Section Txg.
Context (txg : Z).

(** The invariant while a flush is going on: the end of the transaction range of a node in memory is not
    relied upon. *)
Fixpoint fgood (h : nat) (lo : Z) (hi : option Z) (ts : Z) (n : node) : Prop :=
  match h, n with
  | O, Leaf l => zm_ok l /\ Forall (fun p => lo <= fst p /\ lt_opt (fst p) hi) l
  | S h', Int cs =>
      chain (fun e nx =>
        lt_opt (e_key e) nx /\ e_ts e <= txg /\ len_ok (e_node e) /\
        match e_ptr e with
        | Some a => (e_ts e <= a_txg a < e_te e /\ e_te e <= txg + 1) /\ clean h' (e_node e) /\
                    good h' (e_key e) nx (e_ts e) (e_te e) (e_node e)
        | None => fgood h' (e_key e) nx (e_ts e) (e_node e)
        end) lo hi cs
      /\ Forall (fun e => ts <= e_ts e) cs
  | _, _ => False
  end.
Definition fegood (h : nat) (e : elem) (nx : option Z) : Prop :=
  lt_opt (e_key e) nx /\ e_ts e <= txg /\ len_ok (e_node e) /\
  match e_ptr e with
  | Some a => (e_ts e <= a_txg a < e_te e /\ e_te e <= txg + 1) /\ clean h (e_node e) /\
              good h (e_key e) nx (e_ts e) (e_te e) (e_node e)
  | None => fgood h (e_key e) nx (e_ts e) (e_node e)
  end.
Lemma fgood_S h lo hi ts cs :
  fgood (S h) lo hi ts (Int cs) <-> chain (fegood h) lo hi cs /\ Forall (fun e => ts <= e_ts e) cs.
Proof. reflexivity. Qed.

Lemma good_fgood h : forall lo hi ts te n, good h lo hi ts te n -> te <= txg + 1 -> fgood h lo hi ts n.
Proof.
  induction h as [|h IH]; intros lo hi ts te n G T; destruct n as [l|cs]; try (cbn in G; tauto).
  - exact G.
  - apply good_S in G. destruct G as [C F]. apply fgood_S. split.
    + eapply chain_impl; [|exact C]. intros e nx I (A&B&D&E&G).
      rewrite Forall_forall in F. destruct (F e I) as [F1 F2].
      split; [exact A|]. split; [lia|]. split; [exact D|]. unfold ptr_ok in E. destruct (e_ptr e).
      * destruct E as [E1 E2]. split; [split; [exact E1|lia]|]. split; [exact E2|exact G].
      * eapply IH; [exact G|lia].
    + eapply Forall_impl; [|exact F]. intros e [A _]. exact A.
Qed.

Lemma fgood_good h lo hi ts cs : fgood (S h) lo hi ts (Int cs) -> existsb is_dirty cs = false ->
  good (S h) lo hi ts (txg + 1) (Int cs) /\ clean (S h) (Int cs).
Proof.
  intros G N. apply fgood_S in G. destruct G as [C F].
  assert (Cl : Forall (fun e => is_dirty e = false) cs).
  { clear - N. induction cs as [|e r IH]; constructor; cbn in N; apply orb_false_iff in N; [tauto|]. apply IH. tauto. }
  rewrite Forall_forall in Cl, F. split.
  - apply good_S. split.
    + eapply chain_impl; [|exact C]. intros e nx I (A&B&D&E). specialize (Cl e I). unfold is_dirty in Cl.
      split; [exact A|]. unfold ptr_ok. destruct (e_ptr e); [|discriminate]. destruct E as ((E1&E2)&E3&E4).
      split; [lia|]. split; [exact D|]. split; [split; [exact E1|exact E3]|exact E4].
    + apply Forall_forall. intros e I. destruct (chain_in _ _ _ _ _ C I) as [_ [nx (A&B&D&E)]]. specialize (Cl e I). unfold is_dirty in Cl.
      destruct (e_ptr e); [|discriminate]. split; [apply F; exact I|]. lia.
  - cbn. apply Forall_forall. intros e I. destruct (chain_in _ _ _ _ _ C I) as [_ [nx (A&B&D&E)]]. specialize (Cl e I). unfold is_dirty in Cl.
    destruct (e_ptr e); [|discriminate]. split; [discriminate|]. apply E.
Qed.

(** the new records have the addresses [nx .. nx'-1] *)
Definition news (nx nx' : Z) (new : list (addr * node)) : Prop :=
  nx <= nx' /\ Permutation (map fst new) (map (fun i => Addr i txg) (zrange nx nx')).
Lemma news_nil nx : news nx nx [].
Proof. split; [lia|]. rewrite zrange_empty by lia. reflexivity. Qed.
Lemma news_one nx n : news nx (nx + 1) [(Addr nx txg, n)].
Proof. split; [lia|]. rewrite zrange_cons, zrange_empty by lia. reflexivity. Qed.
Lemma news_app a b c x y : news a b x -> news b c y -> news a c (x ++ y).
Proof.
  intros [A1 A2] [B1 B2]. split; [lia|]. rewrite (zrange_split a b c) by lia. rewrite !map_app. now apply Permutation_app.
Qed.

Definition dcount (h : nat) (cs : list elem) : nat :=
  list_sum (map (fun e => (if is_dirty e then 1 else 0) + dirty_count h (e_node e))%nat cs).
Definition kbelow (h : nat) (cs : list elem) : list Z :=
  flat_map (fun e => e_key e :: keys_below h (e_node e)) cs.
Lemma list_sum_cons a l : list_sum (a :: l) = (a + list_sum l)%nat.
Proof. reflexivity. Qed.
Lemma dcount_mid h l e r : dcount h (l ++ e :: r) =
  (dcount h l + ((if is_dirty e then 1 else 0) + dirty_count h (e_node e)) + dcount h r)%nat.
Proof. unfold dcount. rewrite map_app, list_sum_app, map_cons, list_sum_cons. lia. Qed.
Lemma kbelow_mid h l e r : kbelow h (l ++ e :: r) = kbelow h l ++ (e_key e :: keys_below h (e_node e)) ++ kbelow h r.
Proof. unfold kbelow. now rewrite flat_map_app. Qed.

Lemma kbelow_0 cs : kbelow 0 cs = map e_key cs.
Proof. induction cs as [|e r IH]; [reflexivity|]. unfold kbelow in *. cbn [flat_map map]. rewrite IH. now destruct (e_node e). Qed.

Definition fl_post (h : nat) (lo : Z) (hi : option Z) (ts lowest nx : Z) (cs : list elem)
  (res : option (list elem * Z * option Z)) : Prop :=
  exists cs' nx' ck new, res = Some (cs', nx', ck) /\
    chain (fegood h) lo hi cs' /\ Forall (fun e => ts <= e_ts e) cs' /\ flats h cs' = flats h cs /\
    length cs' = length cs /\ kbelow h cs' = kbelow h cs /\
    news nx nx' new /\ Permutation (flat_map (recs_elem h) cs') (new ++ flat_map (recs_elem h) cs) /\
    (forall k, ck = Some k -> lowest < k /\ In k (kbelow h cs)) /\
    (dcount h cs' <= dcount h cs)%nat /\
    (lowest <= lo -> existsb is_dirty cs = true -> (dcount h cs' < dcount h cs)%nat).

(** ** The leaves *)

Lemma flush_leaves_spec : forall cs lo hi ts nx, chain (fegood 0) lo hi cs -> Forall (fun e => ts <= e_ts e) cs -> ts <= txg ->
  exists cs' nx' new, flush_leaves txg nx cs = (cs', nx') /\
    chain (fegood 0) lo hi cs' /\ Forall (fun e => ts <= e_ts e) cs' /\ flats 0 cs' = flats 0 cs /\
    length cs' = length cs /\ map e_key cs' = map e_key cs /\
    news nx nx' new /\ Permutation (flat_map (recs_elem 0) cs') (new ++ flat_map (recs_elem 0) cs) /\
    existsb is_dirty cs' = false.
Proof.
  induction cs as [|e r IH]; intros lo hi ts nx C F T.
  - exists [], nx, []. cbn. repeat (split; [auto using news_nil|]). reflexivity.
  - destruct C as (A & (B1&B2&B3&B4) & C). inversion F as [|? ? F1 F2]; subst.
    destruct e as [k s t p m n]. cbn [flush_leaves]. cbn [e_key e_ts e_ptr e_node e_te] in *.
    destruct p as [a|].
    + destruct (IH _ _ _ nx C F2 T) as (r' & nx' & new & E & X1 & X2 & X3 & X4 & X5 & X6 & X7 & X8). rewrite E.
      exists (Elem k s t (Some a) m n :: r'), nx', new. split; [reflexivity|].
      assert (NK : nextkey hi r' = nextkey hi r).
      { destruct r, r'; cbn in X5 |- *; try discriminate; [reflexivity|]. injection X5 as X5 _. now rewrite X5. }
      split; [|split; [|split; [|split; [|split; [|split; [exact X6|split]]]]]].
      * split; [exact A|]. rewrite NK. split; [split; [exact B1|split; [exact B2|split; [exact B3|exact B4]]]|exact X1].
      * constructor; assumption.
      * rewrite !flats_cons, X3. reflexivity.
      * cbn. lia.
      * cbn. now rewrite X5.
      * cbn [flat_map]. rewrite X7. apply Permutation_app_swap_app.
      * cbn. exact X8.
    + destruct (IH _ _ _ (nx + 1) C F2 T) as (r' & nx' & new & E & X1 & X2 & X3 & X4 & X5 & X6 & X7 & X8). rewrite E.
      exists (Elem k txg (txg + 1) (Some (Addr nx txg)) m n :: r'), nx', ((Addr nx txg, n) :: new). split; [reflexivity|].
      assert (NK : nextkey hi r' = nextkey hi r).
      { destruct r, r'; cbn in X5 |- *; try discriminate; [reflexivity|]. injection X5 as X5 _. now rewrite X5. }
      assert (SH : exists l, n = Leaf l) by (destruct n; [eauto|destruct B4]). destruct SH as [l ->].
      split; [|split; [|split; [|split; [|split; [|split; [|split]]]]]].
      * split; [exact A|]. rewrite NK. split; [|exact X1]. split; [exact B1|]. cbn [e_ts e_te e_ptr e_node e_key a_txg].
        split; [lia|]. split; [exact B3|]. split; [lia|]. split; [exact I|]. exact B4.
      * constructor; [cbn; lia|assumption].
      * rewrite !flats_cons, X3. reflexivity.
      * cbn. lia.
      * cbn. now rewrite X5.
      * change ((Addr nx txg, Leaf l) :: new) with ([(Addr nx txg, Leaf l)] ++ new). eapply news_app; [apply news_one|exact X6].
      * cbn [flat_map]. rewrite !recs_e. cbn [e_ptr e_node app recs_below]. rewrite X7. reflexivity.
      * cbn. exact X8.
Qed.

Lemma clean_dcount h : forall n : node, clean h n -> dirty_count h n = O.
Proof.
  induction h as [|h IH]; intros [l|cs] C; try reflexivity. cbn [clean dirty_count] in C |- *. induction C as [|e r [A B] C IHr]; [reflexivity|].
  rewrite map_cons, list_sum_cons, IHr, IH by exact B. unfold is_dirty. destruct (e_ptr e); [reflexivity|congruence].
Qed.

Lemma dcount_clean h lo hi cs : chain (fegood h) lo hi cs -> existsb is_dirty cs = false -> dcount h cs = O.
Proof.
  intros C N. change (dirty_count (S h) (Int cs) = O). apply clean_dcount.
  eapply fgood_good; [|exact N]. apply fgood_S. split; [exact C|].
  apply Forall_forall. intros e I. instantiate (1 := fold_right Z.min 0 (map e_ts cs)). clear - I.
  induction cs as [|c r IH]; [destruct I|]. destruct I as [->|I]; cbn; [lia|]. specialize (IH I). lia.
Qed.

Lemma dcount_pos h cs : existsb is_dirty cs = true -> (1 <= dcount h cs)%nat.
Proof.
  intros E. apply existsb_exists in E. destruct E as (e & I & D). apply in_split in I. destruct I as (l & r & ->).
  rewrite dcount_mid, D. lia.
Qed.

(** ** Interior nodes *)

Lemma skip_clean_spec (cs : list elem) i : (exists l e r, cs = l ++ e :: r /\ skip_clean cs i = (i + length l)%nat /\ is_dirty e = true)
  \/ (existsb is_dirty cs = false /\ skip_clean cs i = (i + length cs)%nat).
Proof.
  revert i; induction cs as [|e r IH]; intros i; cbn [skip_clean].
  - right. split; [reflexivity|cbn; lia].
  - destruct (is_dirty e) eqn:D.
    + left. exists [], e, r. split; [reflexivity|]. split; [cbn; lia|exact D].
    + destruct (IH (S i)) as [(l & c & r' & -> & E & D')|[N E]].
      * left. exists (e :: l), c, r'. split; [reflexivity|]. split; [rewrite E; cbn; lia|exact D'].
      * right. split; [cbn; now rewrite D, N|]. rewrite E. cbn. lia.
Qed.

Lemma chain_fmid h lo hi l e r : chain (fegood h) lo hi (l ++ e :: r) <->
  chain (fegood h) lo (Some (e_key e)) l /\ endlo lo l <= e_key e /\ fegood h e (nextkey hi r) /\
  chain (fegood h) (e_key e + 1) hi r.
Proof. rewrite chain_app. cbn. tauto. Qed.

Lemma flush_r_S h lowest nx (cs : list elem) : flush_r txg (S (S h)) lowest nx cs =
  let idx0 := position cs lowest in
  let idx := skip_clean (skipn idx0 cs) idx0 in
  match nth_error cs idx with
  | None => Some (cs, nx, None)
  | Some (Elem k s t p m n) =>
      let next_key := option_map e_key (nth_error cs (S idx)) in
      match n with
      | Leaf _ => None
      | Int cs1 =>
          if existsb is_dirty cs1 then
            match flush_r txg (S h) lowest nx cs1 with
            | None => None
            | Some (cs1', nx', ck) =>
                Some (put_child cs idx (Elem k s t p m (Int cs1')), nx',
                      match ck with Some _ => ck | None => next_key end)
            end
          else
            match min_ts cs1 with
            | None => None
            | Some st =>
                Some (put_child cs idx (Elem k st (txg + 1) (Some (Addr nx txg)) m n), nx + 1, next_key)
            end
      end
  end.
Proof. reflexivity. Qed.

Lemma flush_r_spec h : forall lo hi ts lowest nx cs,
  chain (fegood h) lo hi cs -> Forall (fun e => ts <= e_ts e) cs -> ts <= txg -> cs <> [] ->
  fl_post h lo hi ts lowest nx cs (flush_r txg (S h) lowest nx cs).
Proof.
  induction h as [|h IH]; intros lo hi ts lowest nx cs C F T N.
  - cbn [flush_r]. destruct (flush_leaves_spec cs lo hi ts nx C F T) as (cs' & nx' & new & E & X1 & X2 & X3 & X4 & X5 & X6 & X7 & X8).
    rewrite E. exists cs', nx', None, new. split; [reflexivity|]. split; [exact X1|]. split; [exact X2|]. split; [exact X3|]. split; [exact X4|].
    split. { rewrite !kbelow_0. exact X5. }
    split; [exact X6|]. split; [exact X7|]. split; [discriminate|].
    rewrite (dcount_clean 0 lo hi cs' X1 X8). split; [lia|]. intros _ D. apply (dcount_pos 0) in D. lia.
  - rewrite flush_r_S. cbv zeta. set (idx0 := position cs lowest).
    destruct (position_split _ _ _ _ lowest C N) as (l & e0 & r0 & Ecs & P & A & B). fold idx0 in P.
    assert (Sk : skipn idx0 cs = e0 :: r0).
    { rewrite P, Ecs. rewrite skipn_app, skipn_all2, Nat.sub_diag by lia. reflexivity. }
    rewrite Sk, P. destruct (skip_clean_spec (e0 :: r0) (length l)) as [(l2 & e & r & Er & Hs & D)|[Nd Hs]].
    + rewrite Hs. assert (Ec : cs = (l ++ l2) ++ e :: r) by (rewrite Ecs, Er, app_assoc; reflexivity).
      replace (length l + length l2)%nat with (length (l ++ l2)) by apply app_length.
      set (L := l ++ l2) in *. rewrite Ec, nth_error_mid.
      assert (NK : match option_map e_key (nth_error (L ++ e :: r) (S (length L))) with Some k => lowest < k /\ In k (kbelow (S h) cs) | None => True end).
      { rewrite nth_error_app2 by lia. replace (S (length L) - length L)%nat with 1%nat by lia. cbn [nth_error].
        destruct r as [|c r]; [exact I|]. cbn. split.
        - assert (Hc : In c r0).
          { destruct l2 as [|x l2]; cbn in Er; injection Er as -> ->; [now left|]. apply in_or_app. right. right. now left. }
          rewrite Ecs in C. apply chain_fmid in C. destruct C as (_&_&_&C). destruct r0 as [|c0 r0]; [destruct Hc|].
          cbn in B. destruct C as (X1 & X2 & X3). destruct Hc as [->|Hc]; [lia|]. apply chain_keys_ge in X3. rewrite Forall_forall in X3. specialize (X3 _ Hc). lia.
        - rewrite Ec. change (L ++ e :: c :: r) with (L ++ [e] ++ c :: r). rewrite app_assoc, kbelow_mid. apply in_or_app. right. now left. }
      assert (C' := C). rewrite Ec in C'. apply chain_fmid in C'. destruct C' as (C1 & C2 & Ce & C3).
      assert (F' := F). rewrite Ec in F'. apply Forall_mid in F'. destruct F' as (F1 & F2 & F3).
      destruct e as [k s t p m n]. unfold is_dirty in D. cbn in D. destruct p; [discriminate|]. clear D.
      destruct Ce as (E1 & E2 & E3 & E4). cbn [e_ptr e_key e_ts e_node e_te] in *.
      destruct n as [|cs1]; [destruct E4|]. apply fgood_S in E4. destruct E4 as [D1 D2].
      assert (N1 : cs1 <> []) by (destruct HL as (?&_); destruct cs1; [cbn in E3; lia|discriminate]).
      destruct (existsb is_dirty cs1) eqn:Ed.
      * destruct (IH _ _ _ lowest nx cs1 D1 D2 E2 N1) as (cs1' & nx' & ck & new & R & X1 & X2 & X3 & X4 & X5 & X6 & X7 & X8 & X9 & X10).
        rewrite R, put_child_mid.
        set (ck' := match ck with Some _ => ck | None => _ end).
        exists (L ++ Elem k s t None m (Int cs1') :: r), nx', ck', new. split; [reflexivity|].
        split. { apply chain_fmid. cbn [e_key]. split; [exact C1|]. split; [exact C2|]. split; [|exact C3].
          split; [exact E1|]. split; [exact E2|]. split; [cbn in E3 |- *; rewrite X4; exact E3|]. cbn [e_ptr e_node e_key e_ts]. apply fgood_S. split; assumption. }
        split; [apply Forall_mid; auto|].
        split; [rewrite !flats_app, !flats_cons; cbn [e_node]; rewrite !flat_Int, X3; reflexivity|].
        split; [rewrite !app_length; reflexivity|].
        split; [rewrite !kbelow_mid; cbn [e_node e_key keys_below]; fold (kbelow h cs1') (kbelow h cs1); rewrite X5; reflexivity|].
        split; [exact X6|].
        split. { rewrite !flat_map_app. cbn [flat_map]. rewrite !recs_e. cbn [e_ptr e_node app]. rewrite !recs_Int, X7, <- !app_assoc.
                 rewrite Permutation_app_swap_app. reflexivity. }
        split. { intros k' Hk'. unfold ck' in Hk'. destruct ck as [k1|].
                 - destruct (X8 k' Hk') as [X8a X8b]. split; [exact X8a|]. rewrite kbelow_mid. apply in_or_app. right. right. apply in_or_app. left. exact X8b.
                 - rewrite Hk' in NK. rewrite <- Ec. exact NK. }
        rewrite !dcount_mid. cbn [is_dirty e_ptr e_node]. change (dirty_count (S h) (Int cs1')) with (dcount h cs1').
        change (dirty_count (S h) (Int cs1)) with (dcount h cs1). split; [lia|].
        intros Lw _. assert (dcount h cs1' < dcount h cs1)%nat; [|lia]. apply X10; [|exact Ed].
        apply endlo_ge in C1. lia.
      * destruct (fgood_good h k (nextkey hi r) s cs1 (proj2 (fgood_S _ _ _ _ _) (conj D1 D2)) Ed) as [G1 Cl1].
        destruct (start_spec lim mi ml (S h) k (nextkey hi r) s txg (Int cs1) G1 ltac:(destruct HL as (?&_); cbn in E3 |- *; lia) E2) as (st & Hst & Sb & Gs).
        cbn [start_txg] in Hst. rewrite Hst, put_child_mid.
        exists (L ++ Elem k st (txg + 1) (Some (Addr nx txg)) m (Int cs1) :: r), (nx + 1), (option_map e_key (nth_error (L ++ Elem k s t None m (Int cs1) :: r) (S (length L)))), [(Addr nx txg, Int cs1)].
        split; [reflexivity|].
        split. { apply chain_fmid. cbn [e_key]. split; [exact C1|]. split; [exact C2|]. split; [|exact C3].
          split; [exact E1|]. cbn [e_ts e_te e_ptr e_node e_key a_txg]. split; [lia|]. split; [exact E3|].
          split; [lia|]. split; [exact Cl1|]. exact Gs. }
        split; [apply Forall_mid; cbn; split; [exact F1|split; [lia|exact F3]]|].
        split; [rewrite !flats_app, !flats_cons; reflexivity|].
        split; [rewrite !app_length; reflexivity|]. split; [rewrite !kbelow_mid; reflexivity|].
        split; [apply news_one|].
        split. { rewrite !flat_map_app. cbn [flat_map]. rewrite !recs_e. cbn [e_ptr e_node app].
                 rewrite <- Permutation_middle. reflexivity. }
        split. { intros k' Hk'. rewrite Hk' in NK. rewrite <- Ec. exact NK. }
        rewrite !dcount_mid. cbn [is_dirty e_ptr e_node]. split; intros; lia.
    + rewrite Hs. assert (Hn : nth_error cs (length l + length (e0 :: r0)) = None) by (apply nth_error_None; rewrite Ecs, app_length; lia).
      rewrite Hn. exists cs, nx, None, []. split; [reflexivity|]. repeat (split; [first [assumption|reflexivity]|]).
      split; [apply news_nil|]. split; [reflexivity|]. split; [discriminate|]. split; [lia|].
      intros Lw D. exfalso. destruct l as [|x l].
      * cbn in Ecs. rewrite Ecs, Nd in D. discriminate.
      * destruct A as [A|A]; [discriminate|]. rewrite Ecs in C. assert (C' := C). apply chain_keys_lt in C'. inversion C'; subst.
        destruct C as [C _]. lia.
Qed.

(** ** The loop *)

Definition fl_tree (t t' : tree) (nx nx' : Z) : Prop :=
  t_h t' = t_h t /\ contents t' = contents t /\ keys_below (t_h t) (e_node (t_root t')) = keys_below (t_h t) (e_node (t_root t)) /\
  exists new, news nx nx' new /\ Permutation (recs_elem (t_h t) (t_root t')) (new ++ recs_elem (t_h t) (t_root t)).

Lemma fl_tree_trans a b c x y z : fl_tree a b x y -> fl_tree b c y z -> fl_tree a c x z.
Proof.
  intros (A1&A2&A3&n1&A4&A5) (B1&B2&B3&n2&B4&B5). rewrite A1 in *. split; [congruence|]. split; [congruence|]. split; [congruence|].
  exists (n1 ++ n2). split; [eapply news_app; eauto|]. rewrite B5, A5, app_assoc. apply Permutation_app_tail, Permutation_app_comm.
Qed.

(** root in memory while flushing *)
Definition ftgood (t : tree) : Prop :=
  let 'Elem rk rs rt rp _ rn := t_root t in
  rk = 0 /\ fgood (t_h t) 0 None rs rn /\ rs <= txg /\ (n_len rn <= n_max lim rn)%nat /\ nonempty rn /\ rp = None.

Definition dirty_root (t : tree) : nat := dirty_count (t_h t) (e_node (t_root t)).

Lemma flush_iter_spec t lowest nx : ftgood t -> 0 <= lowest ->
  exists t' nx' res, flush_iter txg lowest nx t = Some (t', nx', res) /\ fl_tree t t' nx nx' /\
    match res with
    | inl k => ftgood t' /\ lowest < k /\ In k (keys_below (t_h t) (e_node (t_root t))) /\
               (dirty_root t' <= dirty_root t)%nat /\ (lowest = 0 -> (dirty_root t' < dirty_root t)%nat)
    | inr true => ftgood t' /\ (dirty_root t' <= dirty_root t)%nat /\ (lowest = 0 -> (dirty_root t' < dirty_root t)%nat)
    | inr false => tgood lim mi ml txg t' /\ e_ptr (t_root t') <> None
    end.
Proof.
  destruct t as [[rk rs rt rp rm rn] h]. unfold ftgood. cbn [t_root t_h]. intros (-> & G & Tx & Ln & N & ->) Lw.
  unfold flush_iter. cbn [t_root t_h is_dirty e_ptr xlock_root]. destruct rn as [l|cs].
  - destruct h; [|destruct G].
    eexists _, _, _. split; [reflexivity|]. cbn [t_root t_h e_ptr].
    split. { split; [reflexivity|]. split; [reflexivity|]. split; [reflexivity|]. exists [(Addr nx txg, Leaf l)].
             split; [apply news_one|]. cbn. reflexivity. }
    split; [|discriminate]. unfold tgood. cbn [t_root t_h a_txg]. split; [reflexivity|]. split; [exact G|]. repeat (split; [lia|]). split; [exact I|]. split; [lia|exact I].
  - destruct h; [destruct G|]. assert (G' := G). apply fgood_S in G. destruct G as [C F].
    assert (NE : cs <> []) by (destruct cs; [destruct N|discriminate]).
    destruct (existsb is_dirty cs) eqn:Ed.
    + destruct (flush_r_spec h 0 None rs lowest nx cs C F Tx NE) as (cs' & nx' & ck & new & R & X1 & X2 & X3 & X4 & X5 & X6 & X7 & X8 & X9 & X10).
      rewrite R.
      set (t' := Tree (Elem 0 rs (txg + 1) None rm (Int cs')) (S h)).
      assert (FG : ftgood t').
      { unfold ftgood. cbn [t' t_root t_h]. split; [reflexivity|]. split; [apply fgood_S; split; assumption|]. split; [exact Tx|].
        cbn in Ln |- *. rewrite X4. split; [exact Ln|]. split; [|reflexivity]. destruct cs'; [|exact I]. destruct cs; [congruence|discriminate]. }
      assert (FT : fl_tree (Tree (Elem 0 rs rt None rm (Int cs)) (S h)) t' nx nx').
      { split; [reflexivity|]. split; [unfold contents; cbn [t' t_root t_h e_node]; rewrite !flat_Int; exact X3|].
        split; [exact X5|]. exists new. split; [exact X6|]. cbn [t' t_root t_h]. rewrite !recs_e. cbn [e_ptr e_node app]. rewrite !recs_Int. exact X7. }
      assert (D1 : (dirty_root t' <= dirty_root (Tree (Elem 0 rs rt None rm (Int cs)) (S h)))%nat) by exact X9.
      assert (D2 : lowest = 0 -> (dirty_root t' < dirty_root (Tree (Elem 0 rs rt None rm (Int cs)) (S h)))%nat) by (intros ->; apply X10; [lia|exact Ed]).
      destruct ck as [k|]; eexists _, _, _; (split; [reflexivity|]); (split; [exact FT|]).
      * destruct (X8 k eq_refl) as [Y1 Y2]. split; [exact FG|]. split; [exact Y1|]. split; [exact Y2|]. split; assumption.
      * split; [exact FG|]. split; assumption.
    + destruct (fgood_good h 0 None rs cs G' Ed) as [G1 Cl1].
      destruct (start_spec lim mi ml (S h) 0 None rs txg (Int cs) G1 ltac:(destruct cs; [congruence|cbn; lia]) Tx) as (st & Hst & Sb & Gs).
      cbn [start_txg] in Hst. rewrite Hst. eexists _, _, _. split; [reflexivity|]. cbn [e_ptr t_root t_h].
      split. { split; [reflexivity|]. split; [reflexivity|]. split; [reflexivity|]. exists [(Addr nx txg, Int cs)].
             split; [apply news_one|]. cbn. reflexivity. }
      split; [|discriminate]. unfold tgood. cbn [t_root t_h a_txg]. split; [reflexivity|]. split; [exact Gs|].
      split; [lia|]. split; [lia|]. split; [exact Ln|]. split; [exact N|]. split; [lia|exact Cl1].
Qed.

Definition above_count (lowest : Z) (ks : list Z) : nat := length (filter (fun k => lowest <? k) ks).
Lemma above_count_lt lowest k ks : lowest < k -> In k ks -> (above_count k ks < above_count lowest ks)%nat.
Proof.
  intros L I. unfold above_count. apply in_split in I. destruct I as (a & b & ->). rewrite !filter_app, !app_length. cbn [filter].
  destruct (Z.ltb_spec k k); [lia|]. destruct (Z.ltb_spec lowest k); [|lia]. cbn [length].
  assert (H1 : forall c, (length (filter (fun x => (k <? x)%Z) c) <= length (filter (fun x => (lowest <? x)%Z) c))%nat).
  { clear - L. induction c as [|x c IH]; cbn; [lia|]. destruct (Z.ltb_spec k x), (Z.ltb_spec lowest x); cbn; lia. }
  pose proof (H1 a). pose proof (H1 b). lia.
Qed.
Lemma above_count_le lowest ks : (above_count lowest ks <= length ks)%nat.
Proof. unfold above_count. induction ks as [|x ks IH]; cbn; [lia|]. destruct (lowest <? x); cbn; lia. Qed.

Lemma flush_loop_spec fuel : forall t lowest nx d, ftgood t -> 0 <= lowest ->
  (dirty_root t + (if (lowest =? 0)%Z then 0 else 1) <= d)%nat ->
  (d * (length (keys_below (t_h t) (e_node (t_root t))) + 1) + above_count lowest (keys_below (t_h t) (e_node (t_root t))) < fuel)%nat ->
  exists t' nx', flush_loop fuel txg lowest nx t = Some (t', nx') /\ fl_tree t t' nx nx' /\
    tgood lim mi ml txg t' /\ e_ptr (t_root t') <> None.
Proof.
  induction fuel as [|fuel IH]; intros t lowest nx d G Lw D Fu; [lia|]. cbn [flush_loop].
  destruct (flush_iter_spec t lowest nx G Lw) as (t' & nx' & res & E & FT & R). rewrite E.
  assert (FT' := FT). destruct FT' as (H1 & H2 & H3 & _).
  set (K := keys_below (t_h t) (e_node (t_root t))) in *.
  assert (HK : keys_below (t_h t') (e_node (t_root t')) = K) by (rewrite H1; exact H3).
  destruct res as [k|[|]].
  - destruct R as (R1 & R2 & R3 & R4 & R5). pose proof (above_count_lt lowest k K R2 R3) as AC.
    destruct (IH t' k nx' d R1 ltac:(lia)) as (t2 & nx2 & L & FT2 & Z).
    + destruct (Z.eqb_spec k 0); [lia|]. destruct (Z.eqb_spec lowest 0) as [E0|E0]; [specialize (R5 E0); lia|lia].
    + rewrite HK. lia.
    + exists t2, nx2. split; [exact L|]. split; [eapply fl_tree_trans; eauto|exact Z].
  - destruct R as (R1 & R4 & R5).
    assert (Dl : (dirty_root t' + 1 <= d)%nat) by (destruct (Z.eqb_spec lowest 0) as [E0|E0]; [specialize (R5 E0); lia|lia]).
    destruct (IH t' 0 nx' (d - 1)%nat R1 ltac:(lia)) as (t2 & nx2 & L & FT2 & Z).
    + cbn. lia.
    + rewrite HK. pose proof (above_count_le 0 K). destruct d as [|d]; [lia|]. cbn [Nat.sub]. rewrite Nat.sub_0_r. cbn [Nat.mul] in Fu. lia.
    + exists t2, nx2. split; [exact L|]. split; [eapply fl_tree_trans; eauto|exact Z].
  - destruct R as [R1 R2]. exists t', nx'. split; [reflexivity|]. split; [exact FT|]. split; assumption.
Qed.

Theorem flush_spec T t nx : tgood lim mi ml T t -> T <= txg ->
  exists t' nx', flush txg nx t = Some (t', nx') /\ fl_tree t t' nx nx' /\
    tgood lim mi ml txg t' /\ e_ptr (t_root t') <> None /\ (e_ptr (t_root t) <> None -> t' = t).
Proof.
  intros G L. unfold flush.
  destruct (e_ptr (t_root t)) as [a|] eqn:Ep.
  - assert (FI : flush_iter txg 0 nx t = Some (t, nx, inr false)) by (unfold flush_iter, is_dirty; rewrite Ep; reflexivity).
    exists t, nx. split. { rewrite Nat.add_1_r. cbn [Nat.mul]. rewrite Nat.add_1_r. cbn [Nat.add flush_loop]. rewrite FI. reflexivity. }
    split. { split; [reflexivity|]. split; [reflexivity|]. split; [reflexivity|]. exists []. split; [apply news_nil|reflexivity]. }
    split; [eapply tgood_mono; eauto|]. split; [rewrite Ep; discriminate|auto].
  - assert (FG : ftgood t).
    { unfold tgood, ftgood in *. destruct (t_root t) as [rk rs rt rp rm rn]. cbn in Ep. subst rp. destruct G as (A&B&C&D&E&F&_).
      split; [exact A|]. split; [eapply good_fgood; [exact B|lia]|]. split; [lia|]. auto. }
    destruct (flush_loop_spec ((dirty_count (t_h t) (e_node (t_root t)) + 1) * (length (keys_below (t_h t) (e_node (t_root t))) + 1)) t 0 nx (dirty_root t) FG ltac:(lia)) as (t' & nx' & R & X1 & X2 & X3).
    + cbn. lia.
    + pose proof (above_count_le 0 (keys_below (t_h t) (e_node (t_root t)))). unfold dirty_root. nia.
    + exists t', nx'. split; [exact R|]. split; [exact X1|]. split; [exact X2|]. split; [exact X3|]. congruence.
Qed.

End Txg.

(** ** Listing addresses *)

Lemma overlap_complete xs xe ys ye x : above xs x = true -> below xe x = true -> ys <= x < ye -> ranges_overlap xs xe ys ye = true.
Proof.
  intros A B C. unfold ranges_overlap.
  destruct xs, xe; cbn in *; repeat match goal with |- context [?a <=? ?b] => destruct (Z.leb_spec a b) | |- context [?a <? ?b] => destruct (Z.ltb_spec a b) end; cbn; lia.
Qed.

Definition here (xs xe : bound) (e : elem) : list addr :=
  if ranges_overlap xs xe (e_ts e) (e_te e) then opt_list (e_ptr e) else [].

Lemma good_addr_txg h : forall lo hi ts te n a, good h lo hi ts te n -> In a (addrs_below h n) -> ts <= a_txg a < te.
Proof.
  induction h as [|h IH]; intros lo hi ts te n a G I; destruct n as [l|cs]; try destruct I.
  apply good_S in G. destruct G as [C F]. rewrite addrs_Int in I. apply in_flat_map in I. destruct I as (e & Ie & Ia).
  rewrite Forall_forall in F. destruct (F e Ie) as [F1 F2].
  destruct (chain_in _ _ _ _ _ C Ie) as [_ [nx (A&B&D&E&G)]]. rewrite addrs_e in Ia. apply in_app_or in Ia. destruct Ia as [Ia|Ia].
  - unfold ptr_ok in E. destruct (e_ptr e); cbn in Ia; [|tauto]. destruct Ia as [->|[]]. lia.
  - specialize (IH _ _ _ _ _ _ G Ia). lia.
Qed.

Lemma addresses_r_complete xs xe h : forall lo hi cs a, chain (egood h) lo hi cs ->
  In a (flat_map (addrs_elem h) cs) -> above xs (a_txg a) = true -> below xe (a_txg a) = true ->
  In a (addresses_r xs xe (S h) cs).
Proof.
  induction h as [|h IH]; intros lo hi cs a C I A B; apply in_flat_map in I; destruct I as (e & Ie & Ia);
    destruct (chain_in _ _ _ _ _ C Ie) as [_ [nx (A1&B1&D&E&G)]];
    assert (O : ranges_overlap xs xe (e_ts e) (e_te e) = true);
    try (rewrite addrs_e in Ia; apply in_app_or in Ia; destruct Ia as [Ia|Ia];
      [unfold ptr_ok in E; destruct (e_ptr e); cbn in Ia; [|tauto]; destruct Ia as [->|[]]; eapply overlap_complete; eauto; lia
      |pose proof (good_addr_txg _ _ _ _ _ _ _ G Ia); eapply overlap_complete; eauto]).
  - rewrite addrs_e in Ia. apply in_app_or in Ia. destruct Ia as [Ia|Ia].
    + cbn [addresses_r]. apply in_or_app. left. apply in_flat_map. exists e. split; [exact Ie|]. rewrite O. exact Ia.
    + destruct (e_node e); destruct Ia.
  - rewrite addrs_e in Ia. apply in_app_or in Ia. cbn [addresses_r]. apply in_or_app. destruct Ia as [Ia|Ia].
    + left. apply in_flat_map. exists e. split; [exact Ie|]. rewrite O. exact Ia.
    + right. apply in_flat_map. exists e. split; [exact Ie|]. rewrite O. destruct (e_node e) as [l|cs']; [destruct Ia|].
      apply good_S in G. destruct G as [C' _]. eapply IH; eauto.
Qed.

Lemma addresses_r_sound xs xe h : forall (cs : list elem) a, In a (addresses_r xs xe (S h) cs) -> In a (flat_map (addrs_elem h) cs).
Proof.
  induction h as [|h IH]; intros cs a I; cbn [addresses_r] in I; apply in_app_or in I; destruct I as [I|I].
  2: destruct I.
  1, 2: apply in_flat_map in I; destruct I as (e & Ie & Ia); apply in_flat_map; exists e; split; [exact Ie|];
    destruct (ranges_overlap _ _ _ _); [|destruct Ia]; rewrite addrs_e; apply in_or_app; left; exact Ia.
  apply in_flat_map in I; destruct I as (e & Ie & Ia); apply in_flat_map; exists e; split; [exact Ie|].
  destruct (ranges_overlap _ _ _ _); [|destruct Ia]. destruct (e_node e) as [l|cs'] eqn:En; [destruct Ia|].
  rewrite addrs_e, En. apply in_or_app. right. rewrite addrs_Int. apply IH. exact Ia.
Qed.

Theorem addresses_complete T (t : tree) xs xe a : tgood lim mi ml T t -> In a (all_addrs t) ->
  above xs (a_txg a) = true -> below xe (a_txg a) = true -> In a (addresses xs xe t).
Proof.
  unfold tgood, all_addrs, addresses. destruct t as [[rk rs rt rp rm rn] h]. cbn [t_root t_h]. intros (_&G&_&_&_&_&P) I A B.
  rewrite addrs_e in I. cbn [e_ptr e_node] in *. apply in_or_app. apply in_app_or in I. destruct I as [I|I].
  - left. destruct rp as [x|]; [|destruct I]. destruct I as [->|[]]. erewrite overlap_complete; [now left|exact A|exact B|cbn; lia].
  - right. destruct h, rn as [l|cs]; try destruct I. apply good_S in G. destruct G as [C _]. eapply addresses_r_complete; eauto.
Qed.

Theorem addresses_sound (t : tree) xs xe a : In a (addresses xs xe t) -> In a (all_addrs t).
Proof.
  unfold all_addrs, addresses. destruct t as [[rk rs rt rp rm rn] h]. cbn [t_root t_h]. intros I.
  rewrite addrs_e. cbn [e_ptr e_node] in *. apply in_or_app. apply in_app_or in I. destruct I as [I|I].
  - left. destruct (ranges_overlap _ _ _ _); [exact I|destruct I].
  - right. destruct h, rn as [l|cs]; try destruct I. rewrite addrs_Int. eapply addresses_r_sound; eauto.
Qed.

End Flush.
