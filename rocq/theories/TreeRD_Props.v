(** C29: range deletion in the copy-on-write B-tree. *)
From Verif Require Import Common ZMap Tree_Model TreeRD_Model Tree_Inv Tree_Proofs Tree_Remove Tree_Range Tree_Flush Tree_Props
  Tree_RD Tree_RD2.
From Coq Require Import Permutation Sorting.Sorted.

(** * Specification *)

Section Spec.
Context {V : Type}.

(** what a client does with a tree, now with range deletion *)
Inductive xop :=
| Base (o : op V)
| RangeDelete (s e : bound).

(** not the empty open range [(k, k)], see [C29_empty_open_range_panics_refuted] *)
Definition legal_xop (x : xop) : Prop :=
  match x with
  | Base o => legal_op o
  | RangeDelete (Exc a) (Exc b) => a <> b
  | RangeDelete _ _ => True
  end.

Definition xstep (lim : limits) (s : st V) (x : xop) : option (st V * option V) :=
  match x with
  | Base o => step lim s o
  | RangeDelete b e =>
      match range_delete lim (s_txg s) b e (s_tree s) with
      | None => None
      | Some (t, p) => Some (St t (s_txg s) (s_nx s) (s_freed s ++ p), None)
      end
  end.
Fixpoint xrun (lim : limits) (s : st V) (xs : list xop) : option (st V * list (option V)) :=
  match xs with
  | [] => Some (s, [])
  | x :: r => match xstep lim s x with
              | None => None
              | Some (s', v) => match xrun lim s' r with Some (s2, vs) => Some (s2, v :: vs) | None => None end
              end
  end.

Definition in_range (s e : bound) (k : Z) : bool :=
  (match s with Inc a => a <=? k | Exc a => a <? k | Unb => true end) &&
  (match e with Inc b => k <=? b | Exc b => k <? b | Unb => true end).
Definition xmap_step (m : Z -> option V) (x : xop) : (Z -> option V) * option V :=
  match x with
  | Base o => map_step m o
  | RangeDelete s e => (fun k => if in_range s e k then None else m k, None)
  end.
Fixpoint xmap_run (m : Z -> option V) (xs : list xop) : (Z -> option V) * list (option V) :=
  match xs with
  | [] => (m, [])
  | x :: r => let (m', v) := xmap_step m x in let (m2, vs) := xmap_run m' r in (m2, v :: vs)
  end.

Definition is_remove (x : xop) : Prop := match x with Base (Remove _) => True | _ => False end.
(** no single entry is removed after a range was deleted *)
Definition no_late_remove (xs : list xop) : Prop :=
  forall pre s e post, xs = pre ++ RangeDelete s e :: post -> Forall (fun x => ~ is_remove x) post.

(** [s] is the state and [m] the map after some history that did not panic *)
Definition xafter (lim : limits) (s : st V) (m : Z -> option V) : Prop :=
  exists txg nx xs vs ws, 0 <= txg /\ Forall legal_xop xs /\
    xrun lim (init txg nx) xs = Some (s, vs) /\ xmap_run (fun _ => None) xs = (m, ws).

End Spec.
Arguments xop : clear implicits.

(** * Connection with the invariant *)

Section Connect.
Context {V : Type}.
Context (lim : limits).
Context (HL : legal_limits lim).
Notation tgood := (@tgood V lim 1 1).
Notation good := (@good V lim 1 1).
Notation tree := (@tree V).
Notation node := (@node V).

Lemma xlims : lims_ok lim 1 1.
Proof. unfold lims_ok. destruct HL as (?&?&?&?). repeat split; lia. Qed.

Lemma good_loose h : forall lo hi ts te (n : node), Tree_Inv.good lim (min_int lim) (min_leaf lim) h lo hi ts te n -> good h lo hi ts te n.
Proof.
  induction h as [|h IH]; intros lo hi ts te n G; destruct n as [l|cs]; try (cbn in G; tauto); [exact G|].
  apply good_S in G. destruct G as [C F]. apply good_S. split; [|exact F]. eapply chain_impl; [|exact C].
  intros e nx _ (A&B&L&D&E). split; [exact A|]. split; [exact B|]. split; [|split; [exact D|apply IH; exact E]].
  destruct HL as (?&?&?&?). destruct (e_node e); cbn in L |- *; lia.
Qed.
Lemma tgood_loose T (t : tree) : Tree_Proofs.tgood lim (min_int lim) (min_leaf lim) T t -> tgood T t.
Proof. unfold Tree_Proofs.tgood. destruct (t_root t) as [rk rs rt rp rm rn]. intros (A&B&C). split; [exact A|]. split; [apply good_loose; exact B|exact C]. Qed.

(** ** Removal from a tree with thin nodes *)

Definition root_fat (t : tree) : Prop := match e_node (t_root t) with Int [c] => two (e_node c) | _ => True end.

Lemma merge_root_loose T txg (t : tree) : tgood T t -> T <= txg ->
  exists t' popped, xlock_and_merge_root txg t = Some (t', popped) /\ tgood txg t' /\
    contents t' = contents t /\ Permutation (popped ++ all_addrs t') (all_addrs t) /\
    e_ptr (t_root t') = None /\ e_te (t_root t') = txg + 1 /\ (root_fat t -> two (e_node (t_root t'))).
Proof.
  unfold Tree_Proofs.tgood, contents, all_addrs, root_fat, xlock_and_merge_root. intros G L. destruct t as [[rk rs rt rp rm rn] h].
  cbn [t_root t_h e_node xlock_root] in *.
  destruct G as (-> & G & T1 & T2 & Ln & N & Pt).
  assert (G1 : good h 0 None rs (txg + 1) rn) by (eapply good_weaken; [exact G|lia|exact I|lia|lia]).
  destruct rn as [l|[|c [|d cs]]]; [| destruct N | | ].
  - eexists _, _. split; [reflexivity|]. cbn [t_root t_h e_node e_ptr e_te].
    split; [split; [reflexivity|]; split; [exact G1|]; split; [lia|]; split; [lia|]; auto|].
    split; [reflexivity|]. split; [rewrite !addrs_e; destruct rp; reflexivity|]. auto.
  - destruct h as [|h]; [destruct G|]. apply good_S in G. destruct G as [(C1 & (E1&E2&E3&E4&E5) & _) F].
    inversion F as [|? ? [F1 F2] _]; subst. destruct c as [ck cs0 ct cp cm cn].
    cbn [set_key xlock_root]. cbn [e_key e_ts e_te e_node nextkey] in *.
    eexists _, _. split; [reflexivity|]. cbn [t_root t_h e_node e_ptr e_te].
    split; [|split; [cbn; rewrite app_nil_r; reflexivity|split; [|auto]]].
    + split; [reflexivity|]. split; [eapply good_weaken; [exact E5|lia|apply le_opt_refl|lia|lia]|].
      split; [lia|]. split; [lia|]. split; [destruct cn; cbn in E3 |- *; lia|]. split; [|exact I].
      destruct cn as [|[|]]; cbn in E3 |- *; auto; lia.
    + rewrite addrs_elem_Int. cbn [flat_map]. rewrite !addrs_e. cbn [e_ptr e_node opt_list app]. rewrite app_nil_r.
      destruct rp, cp; cbn [opt_list app]; rewrite <- ?app_assoc; reflexivity.
  - eexists _, _. split; [reflexivity|]. cbn [t_root t_h e_node e_ptr e_te].
    split; [split; [reflexivity|]; split; [exact G1|]; split; [lia|]; split; [lia|]; auto|].
    split; [reflexivity|]. split; [rewrite !addrs_e; destruct rp; reflexivity|]. split; [reflexivity|]. split; [reflexivity|].
    intros _. cbn. lia.
Qed.

Lemma remove_no_fix_loose txg k h lo hi ts (n : node) : good h lo hi ts (txg + 1) n -> ts <= txg -> nonempty n ->
  remove_no_fix lim txg k h n = None \/ rem_post lim 1 1 txg k h lo hi ts n (remove_no_fix lim txg k h n).
Proof.
  intros G T N. destruct n as [l|[|c [|d cs]]]; [| destruct N | | ].
  - right. apply remove_no_fix_spec; auto using xlims.
  - destruct h as [|h]; [destruct G|]. assert (G0 := G). apply good_S in G. destruct G as [C F]. cbn [remove_no_fix].
    destruct (xlock_at_mid lim 1 1 xlims txg h lo hi ts [] c [] C F) as (e' & Hx & C1 & F1 & Lk & Q1 & Q2 & Perm).
    assert (P : position [c] k = O) by (unfold position; cbn; destruct (e_key c <=? k); reflexivity). rewrite P. cbn [length app] in *. rewrite Hx.
    destruct (in_danger lim (e_node e')) eqn:Dg.
    + left. unfold fix_int. cbn. reflexivity.
    + right. apply Nat.leb_gt in Dg. assert (HL' := HL). destruct HL' as (M1&M2&M3&M4).
      assert (Big : (match e_node e' with Int _ => 1 | Leaf _ => 1 end < n_len (e_node e'))%nat).
      { destruct (e_node e'); cbn in Dg |- *; lia. }
      assert (RP : rem_post lim 1 1 txg k h (e_key e') hi (e_ts e') (e_node e') (remove_no_fix lim txg k h (e_node e'))).
      { assert (C3' := C1). destruct C3' as (_&(E1&E2&E3&E4&E5)&_). destruct Lk as [_ Lk3].
        rewrite Lk3 in *. apply remove_no_fix_spec; [exact xlims|exact E5|lia|]. destruct (e_node e'); cbn in Dg |- *; [exact I|lia]. }
      destruct (remove_child lim 1 1 txg k h lo hi ts [] e' [] _ C1 F1 (or_introl eq_refl) I Lk Big RP) as (n' & po4 & R & X1 & X2 & X3 & X4 & X5).
      rewrite R. unfold put_child. cbn [firstn skipn app] in *.
      assert (Fl1 : flats h [e'] = flats h [c]) by (rewrite !flats_cons, Q2; reflexivity).
      eexists _, _. rewrite flat_Int, <- Fl1. split; [reflexivity|].
      split; [apply good_S; split; assumption|]. rewrite !flat_Int, !addrs_Int. rewrite X3. split; [reflexivity|].
      split; [|split; [exact I|cbn [n_len length]; lia]].
      rewrite <- Perm, <- X4, <- !app_assoc. reflexivity.
  - right. apply remove_no_fix_spec; auto using xlims. cbn. lia.
Qed.

Theorem remove_loose T txg (t : tree) k : tgood T t -> T <= txg ->
  (remove lim txg k t = None /\ ~ root_fat t) \/
  exists t' popped, remove lim txg k t = Some (t', zm_get k (contents t), popped) /\
    tgood txg t' /\ contents t' = zm_del k (contents t) /\ Permutation (popped ++ all_addrs t') (all_addrs t).
Proof.
  intros G L. destruct (merge_root_loose T txg t G L) as (t1 & po & E & G1 & C1 & P1 & Pt & Te & Tw).
  unfold remove. rewrite E. destruct t1 as [[rk rs rt rp rm rn] h]. unfold contents, all_addrs in *.
  cbn [t_root t_h e_node e_ptr e_te] in *. subst rp rt.
  destruct G1 as (K & G1 & T1 & T2 & Ln & N & _). cbn [t_root t_h] in *.
  destruct (remove_no_fix_loose txg k h 0 None rs rn G1 T2 N) as [R0|R].
  { left. rewrite R0. split; [reflexivity|]. intros Rf. specialize (Tw Rf).
    destruct (remove_no_fix_spec lim 1 1 xlims txg k h 0 None rs rn G1 T2 Tw) as (n' & po' & R & _). congruence. }
  right. destruct R as (n' & po' & R & X1 & X2 & X3 & X4 & X5).
  rewrite R. eexists _, _. rewrite <- C1. split; [reflexivity|]. cbn [t_root t_h e_node set_node e_ptr].
  split; [|split; [rewrite X2; reflexivity|]].
  - split; [exact K|]. split; [exact X1|]. split; [lia|]. split; [lia|].
    split; [destruct (same_kind_len lim _ _ X4); lia|]. split; [|exact I].
    destruct n' as [|[|]]; cbn; auto. destruct h; [destruct X1|]. clear - R G1 N HL. destruct rn as [l|cs]; [destruct G1|].
    assert (exists n2, remove_no_fix lim txg k (S h) (Int cs) = Some (n2, zm_get k (flat (S h) (Int cs)), po') /\ n_len n2 = O) as (n2 & R2 & Z) by (eexists; split; [exact R|reflexivity]).
    clear R. revert R2. cbn [remove_no_fix]. unfold xlock_at. destruct (nth_error cs (position cs k)); [|discriminate].
    destruct (xlock txg e) as [[e' p']|]; [|discriminate].
    assert (Pc : forall (l : list (elem V)) i x, n_len (Int (put_child l i x)) <> O).
    { intros l i x. unfold put_child. cbn [n_len]. rewrite app_length. cbn. lia. }
    destruct (in_danger lim (e_node e')).
    + destruct (fix_int lim txg _ _) as [[[[cs2 ?] ?] ?]|]; [|discriminate]. destruct (nth_error cs2 _); [|discriminate].
      destruct (xlock txg e0) as [[e2 p2]|]; [|discriminate].
      destruct (remove_no_fix lim txg k h (e_node e2)) as [[[nn ?] ?]|]; [|discriminate]. intros [= <- _ _]. eapply Pc; eauto.
    + destruct (remove_no_fix lim txg k h (e_node e')) as [[[nn ?] ?]|]; [|discriminate]. intros [= <- _ _]. eapply Pc; eauto.
  - rewrite <- P1, <- app_assoc. apply Permutation_app_head. rewrite !addrs_e. cbn [e_ptr e_node opt_list app]. exact X3.
Qed.

(** ** Histories *)

Definition xinv (nx0 : Z) (s : st V) (m : Z -> option V) : Prop :=
  0 <= s_txg s /\ tgood (s_txg s) (s_tree s) /\ (forall k, m k = zm_get k (contents (s_tree s))) /\ accounted nx0 s.

Lemma in_range_hit s e k (v : V) : in_range s e k = hit s e (k, v).
Proof. destruct s, e; reflexivity. Qed.

Lemma get_D s e k (l : list (Z * V)) : zm_ok l -> zm_get k (D s e l) = if in_range s e k then None else zm_get k l.
Proof.
  induction l as [|[j v] l IH]; intros Ok; [destruct (in_range s e k); reflexivity|].
  apply zm_ok_cons in Ok. destruct Ok as [Ok F]. unfold D in *. cbn [filter zm_get]. rewrite <- in_range_hit.
  destruct (Z.eqb_spec k j) as [->|N].
  - destruct (in_range s e j) eqn:E; cbn [negb].
    + rewrite (IH Ok). reflexivity.
    + cbn [zm_get]. rewrite Z.eqb_refl. reflexivity.
  - destruct (in_range s e j); cbn [negb zm_get]; [apply IH; exact Ok|]. destruct (Z.eqb_spec k j); [lia|]. apply IH; exact Ok.
Qed.

Lemma rd_inv nx0 s m b e : xinv nx0 s m -> legal_xop (@RangeDelete V b e) -> exists s',
  xstep lim s (RangeDelete b e) = Some (s', None) /\ xinv nx0 s' (fst (xmap_step m (RangeDelete b e))) /\
  (range_is_empty b e = false -> two (e_node (t_root (s_tree s')))).
Proof.
  intros (T0 & G & M & [A1 A2]) Lo. pose proof (tgood_ok _ _ _ _ _ G) as Ok. cbn [xstep xmap_step fst].
  destruct (range_is_empty b e) eqn:Em.
  - unfold range_delete. rewrite Em. eexists. split; [reflexivity|]. split; [|discriminate].
    split; [exact T0|]. split; [exact G|]. split; [|split; [exact A1|cbn; rewrite app_nil_r; exact A2]].
    intros k. cbn [s_tree]. rewrite <- M. assert (E : in_range b e k = false) by (clear - Em; destruct b, e; unfold in_range, range_is_empty in *; try discriminate; lia). now rewrite E.
  - assert (P : proper_range b e).
    { clear - Em Lo. destruct b, e; unfold proper_range, range_is_empty, legal_xop in *; try lia; auto. }
    destruct (range_delete_spec lim xlims _ (s_txg s) _ b e G ltac:(lia) T0 P) as (t' & p & E & G' & C & Pe & _ & Tw).
    rewrite E. eexists. split; [reflexivity|]. split; [|intros _; exact Tw].
    split; [exact T0|]. split; [exact G'|]. cbn [s_tree]. split; [intros k; rewrite C, get_D, M by exact Ok; reflexivity|].
    split; [exact A1|]. cbn [s_tree s_nx s_freed]. rewrite <- app_assoc, Pe. exact A2.
Qed.

Lemma base_inv nx0 s m o : xinv nx0 s m -> legal_op o ->
  (step lim s o = None /\ exists k, o = Remove k /\ ~ root_fat (s_tree s)) \/
  exists s', step lim s o = Some (s', snd (map_step m o)) /\ xinv nx0 s' (fst (map_step m o)).
Proof.
  intros (T0 & G & M & [A1 A2]) Lo. pose proof (tgood_ok _ _ _ _ _ G) as Ok. destruct o as [seq k v|k| | |]; cbn [step map_step fst snd].
  - right. destruct (insert_spec lim _ _ xlims _ (s_txg s) _ seq k v G ltac:(lia) Lo) as (t' & p & E & G' & C & P & _).
    rewrite E, M. eexists. split; [reflexivity|]. split; [exact T0|]. split; [exact G'|]. cbn [s_tree s_txg s_nx s_freed]. split.
    + intros j. rewrite C, zm_get_set by exact Ok. now destruct (j =? k).
    + split; [exact A1|]. cbn [s_tree s_txg s_nx s_freed]. rewrite <- app_assoc. rewrite P. exact A2.
  - destruct (remove_loose _ (s_txg s) _ k G ltac:(lia)) as [[E Nf]|(t' & p & E & G' & C & P)]; rewrite E.
    { left. split; [reflexivity|]. exists k. auto. }
    right. rewrite M. eexists. split; [reflexivity|]. split; [exact T0|]. split; [exact G'|]. cbn [s_tree s_txg s_nx s_freed]. split.
    + intros j. rewrite C, zm_get_del by exact Ok. now destruct (j =? k).
    + split; [exact A1|]. cbn [s_tree s_txg s_nx s_freed]. rewrite <- app_assoc. rewrite P. exact A2.
  - right. destruct (flush_spec lim _ _ xlims (s_txg s) _ _ (s_nx s) G ltac:(lia)) as (t' & nx' & E & F & G' & _).
    rewrite E. eexists. split; [reflexivity|]. split; [exact T0|]. split; [exact G'|]. cbn [s_tree s_txg s_nx s_freed]. split.
    + intros j. destruct F as (_ & C & _). rewrite C. apply M.
    + apply flush_addrs in F. destruct F as [F1 F2]. split; cbn [s_tree s_txg s_nx s_freed]; [lia|].
      rewrite (zrange_split nx0 (s_nx s) nx') by lia. rewrite map_app, F2, map_app, map_map. cbn [a_id]. rewrite map_id.
      rewrite Permutation_app_swap_app, <- map_app, A2. apply Permutation_app_comm.
  - right. eexists. split; [reflexivity|]. split; [cbn; lia|]. split; [cbn; eapply tgood_mono; [|exact G]; lia|]. split; [exact M|]. split; assumption.
  - right. destruct (serialize (s_tree s)) as [d|] eqn:E.
    + assert (OS : tgood (s_txg s) (open d) /\ contents (open d) = contents (s_tree s) /\ all_addrs (open d) = all_addrs (s_tree s)).
      { clear - G E. unfold Tree_Proofs.tgood, serialize, contents, all_addrs in *. destruct (s_tree s) as [[rk rs rt rp rm rn] h]. cbn [t_root t_h] in *.
        destruct rp as [a|]; [|discriminate]. injection E as <-. cbn [open t_root t_h]. destruct G as (->&G).
        split; [split; [reflexivity|exact G]|]. split; reflexivity. }
      destruct OS as (G' & C & P). eexists. split; [reflexivity|].
      split; [exact T0|]. split; [exact G'|]. cbn [s_tree s_txg s_nx s_freed]. split; [intros j; rewrite C; apply M|]. split; [exact A1|]. cbn. rewrite P. exact A2.
    + eexists. split; [reflexivity|]. split; [exact T0|]. split; [exact G|]. split; [exact M|]. split; assumption.
Qed.

Lemma xstep_inv nx0 s m x : xinv nx0 s m -> legal_xop x ->
  (xstep lim s x = None /\ is_remove x) \/
  exists s', xstep lim s x = Some (s', snd (xmap_step m x)) /\ xinv nx0 s' (fst (xmap_step m x)).
Proof.
  intros I Lo. destruct x as [o|b e].
  - destruct (base_inv nx0 s m o I Lo) as [[E (k & -> & _)]|H]; [left; split; [exact E|exact Logic.I]|right; exact H].
  - right. destruct (rd_inv nx0 s m b e I Lo) as (s' & E & I' & _). exists s'. split; [exact E|exact I'].
Qed.

Lemma xrun_inv nx0 : forall (xs : list (xop V)) (s : st V) m, xinv nx0 s m -> Forall legal_xop xs ->
  (xrun lim s xs = None /\ ~ Forall (fun x => ~ is_remove x) xs) \/
  exists s', xrun lim s xs = Some (s', snd (xmap_run m xs)) /\ xinv nx0 s' (fst (xmap_run m xs)).
Proof.
  induction xs as [|x r IH]; intros s m I Lo; [right; exists s; auto|].
  inversion Lo; subst. cbn [xrun xmap_run]. destruct (xstep_inv nx0 s m x I ltac:(assumption)) as [[E R]|(s1 & E & I1)]; rewrite E.
  - left. split; [reflexivity|]. intros F. inversion F; auto.
  - destruct (xmap_step m x) as [m1 y]. cbn [fst snd] in *.
    destruct (IH s1 m1 I1 ltac:(assumption)) as [[E2 R2]|(s2 & E2 & I2)]; rewrite E2.
    + left. split; [reflexivity|]. intros F. inversion F; auto.
    + right. destruct (xmap_run m1 r) as [m2 ys]. exists s2. auto.
Qed.

Lemma xinit_inv txg nx : 0 <= txg -> xinv nx (init txg nx) (fun _ => None).
Proof.
  intros L. split; [exact L|]. split; [apply tgood_empty; exact L|]. split; [reflexivity|]. split; [cbn; lia|]. cbn. rewrite zrange_empty by lia. constructor.
Qed.

Lemma xafter_inv s m : xafter lim s m -> exists nx0, xinv nx0 s m.
Proof.
  intros (txg & nx & xs & vs & ws & L & Lo & R & M). exists nx.
  destruct (xrun_inv nx xs _ _ (xinit_inv txg nx L) Lo) as [[E _]|(s' & E & I)]; [congruence|]. rewrite M in *. rewrite R in E. injection E as -> ->. exact I.
Qed.

(** until the first range deletion the tree is as in [Tree_Props] *)
Lemma xrun_total nx0 : forall (xs : list (xop V)) (s : st V) m, sinv lim nx0 s m -> 0 <= s_txg s -> Forall legal_xop xs -> no_late_remove xs ->
  exists s', xrun lim s xs = Some (s', snd (xmap_run m xs)).
Proof.
  induction xs as [|x r IH]; intros s m I T Lo NL; [exists s; reflexivity|]. inversion Lo; subst.
  destruct x as [o|b e].
  - destruct (step_inv lim HL nx0 s m o I ltac:(assumption)) as (s1 & v & E & I1 & Ev). cbn [xrun xmap_run xstep xmap_step]. rewrite E.
    destruct (map_step m o) as [m1 y] eqn:Em. cbn [fst snd] in *. subst y.
    assert (T1 : 0 <= s_txg s1).
    { destruct o; cbn [step] in E.
      - destruct (insert _ _ _ _ _ _) as [[[? ?] ?]|]; [|discriminate]. injection E as <- _. exact T.
      - destruct (remove _ _ _ _) as [[[? ?] ?]|]; [|discriminate]. injection E as <- _. exact T.
      - destruct (flush _ _ _) as [[? ?]|]; [|discriminate]. injection E as <- _. exact T.
      - injection E as <- _. cbn. lia.
      - destruct (serialize _); injection E as <- _; exact T. }
    destruct (IH s1 m1 I1 T1 ltac:(assumption)) as (s2 & E2).
    { intros pre s0 e0 post Eq. apply (NL (Base o :: pre) s0 e0 post). cbn. now rewrite Eq. }
    rewrite E2. destruct (xmap_run m1 r). exists s2. reflexivity.
  - assert (XI : xinv nx0 s m).
    { destruct I as (G & M & A). split; [exact T|]. split; [apply tgood_loose; exact G|]. split; [exact M|exact A]. }
    destruct (xrun_inv nx0 (RangeDelete b e :: r) s m XI Lo) as [[_ R]|(s' & E & _)]; [|eauto].
    exfalso. apply R. constructor; [cbn; auto|]. exact (NL [] b e r eq_refl).
Qed.

Lemma good_below1 : forall d h lo hi ts te (n n' : node), good h lo hi ts te n -> below d n n' ->
  (d <= h)%nat /\ (d <> O -> len_ok lim 1 1 n') /\ exists lo' hi' ts' te', good (h - d) lo' hi' ts' te' n'.
Proof.
  induction d as [|d IH]; intros h lo hi ts te n n' G B; inversion B; subst.
  - split; [lia|]. split; [congruence|]. rewrite Nat.sub_0_r. eauto 6.
  - destruct h; [destruct G|]. apply good_S in G. destruct G as [C _].
    destruct (chain_in _ _ _ _ _ C H0) as [_ [nx (_&_&Ln&_&G)]]. destruct (IH _ _ _ _ _ _ _ G H1) as (A1 & A2 & A3).
    split; [lia|]. split; [|exact A3]. intros _. destruct d; [inversion H1; subst; exact Ln|]. apply A2. discriminate.
Qed.

End Connect.

(** * The theorems *)

(** Full claim: the same without [no_late_remove].  Missing: whether a [Remove] that follows a range deletion by several
    other operations can panic is open; the proof excludes it only for the first one ([C29_remove_after_range_delete]).

    Range deletion removes exactly the entries of the range: as long as single entries are removed only before ranges are,
    no operation panics and every result is that of a map. *)
Theorem C29_range_delete_as_map_partial {V} lim txg nx (xs : list (xop V)) :
  legal_limits lim -> 0 <= txg -> Forall legal_xop xs -> no_late_remove xs ->
  exists s, xrun lim (init txg nx) xs = Some (s, snd (xmap_run (fun _ => None) xs)).
Proof. intros L T Lo NL. exact (xrun_total lim L nx xs _ _ (init_inv lim txg nx T) T Lo NL). Qed.

(** In any history at all, what does not panic gives the results of a map; only a [Remove] can panic. *)
Theorem C29_any_history_as_map_partial {V} lim txg nx (xs : list (xop V)) s vs :
  legal_limits lim -> 0 <= txg -> Forall legal_xop xs -> xrun lim (init txg nx) xs = Some (s, vs) ->
  vs = snd (xmap_run (fun _ => None) xs) /\
  (forall k, get (s_tree s) k = Some (fst (xmap_run (fun _ => None) xs) k)) /\
  (forall x, legal_xop x -> xstep lim s x = None -> is_remove x).
Proof.
  intros L T Lo R. destruct (xrun_inv lim L nx xs _ _ (xinit_inv lim txg nx T) Lo) as [[E _]|(s' & E & I)]; [congruence|].
  rewrite R in E. injection E as <- <-. split; [reflexivity|]. split.
  - intros k. destruct I as (_ & G & M & _). rewrite (get_spec _ _ _ (xlims lim L) _ _ k G), M. reflexivity.
  - intros x Lx Ex. destruct (xstep_inv lim L nx _ _ x I Lx) as [[_ H]|(s' & H & _)]; [exact H|congruence].
Qed.

(** The first [Remove] after a range deletion does not panic either. *)
Theorem C29_remove_after_range_delete {V} lim (s : st V) m b e k s1 v :
  legal_limits lim -> xafter lim s m -> legal_xop (@RangeDelete V b e) -> range_is_empty b e = false ->
  xstep lim s (RangeDelete b e) = Some (s1, v) ->
  exists s2, xstep lim s1 (Base (Remove k)) = Some (s2, if in_range b e k then None else m k).
Proof.
  intros L A Lo Em E. apply (xafter_inv lim L) in A. destruct A as (nx0 & I).
  destruct (rd_inv lim L nx0 s m b e I Lo) as (s' & E' & I' & Tw). rewrite E in E'. injection E' as <- _. specialize (Tw Em).
  destruct (base_inv lim L nx0 s1 _ (Remove k) I' Logic.I) as [[_ (k' & _ & Nf)]|(s2 & E2 & _)].
  - exfalso. apply Nf. unfold root_fat, two in *. destruct (e_node (t_root (s_tree s1))) as [|[|c [|]]]; auto. cbn in Tw. lia.
  - exists s2. exact E2.
Qed.

Theorem C29_last_key_as_map {V} lim (s : st V) m : legal_limits lim -> xafter lim s m ->
  exists o, last_key (s_tree s) = Some o /\
  match o with
  | None => forall k, m k = None
  | Some k => m k <> None /\ forall j, m j <> None -> j <= k
  end.
Proof.
  intros L A. apply (xafter_inv lim L) in A. destruct A as (nx & _ & G & M & _). rewrite (last_key_spec _ _ _ (xlims lim L) _ _ G).
  pose proof (tgood_ok _ _ _ _ _ G) as Ok. eexists. split; [reflexivity|].
  destruct (rev (contents (s_tree s))) as [|[k v] r] eqn:E.
  - assert (C : contents (s_tree s) = []) by (rewrite <- (rev_involutive (contents _)), E; reflexivity).
    intros k. rewrite M, C. reflexivity.
  - assert (C : contents (s_tree s) = rev r ++ [(k, v)]) by (rewrite <- (rev_involutive (contents _)), E; reflexivity).
    cbn [fst]. split.
    + rewrite M. erewrite zm_in_get; [discriminate|exact Ok|]. rewrite C. apply in_or_app. right. now left.
    + intros j Hj. rewrite M in Hj. destruct (zm_get j (contents (s_tree s))) as [w|] eqn:Ej; [|congruence]. apply zm_get_in in Ej.
      rewrite C in Ej, Ok. unfold zm_ok in Ok. rewrite map_app in Ok. cbn [map fst] in Ok.
      apply in_app_or in Ej. destruct Ej as [Ej|[[= -> ->]|[]]]; [|lia].
      assert (I : In j (map fst (rev r))) by (apply in_map_iff; exists (j, w); auto).
      clear - Ok I. induction (map fst (rev r)) as [|x l IH]; [destruct I|]. cbn in Ok. inversion Ok; subst. destruct I as [->|I]; [|auto].
      rewrite Forall_forall in H2. specialize (H2 k). rewrite in_app_iff in H2. cbn in H2. specialize (H2 ltac:(auto)). lia.
Qed.

Theorem C29_range_as_map {V} lim (s : st V) m b e : legal_limits lim -> xafter lim s m -> proper b e ->
  exists l, lists m (in_bounds b e) l /\
  forall fuel, (length l < fuel)%nat -> range_query fuel (s_tree s) (Some b) e = Some l.
Proof.
  intros L A P. apply (xafter_inv lim L) in A. destruct A as (nx & _ & G & M & _). pose proof (tgood_ok _ _ _ _ _ G) as Ok.
  exists (F b e (contents (s_tree s))). split; [split|].
  - apply zm_ok_lists, zm_ok_filter, Ok.
  - intros k v. unfold F. rewrite filter_In. unfold inr. cbn [fst]. rewrite in_bounds_dec, M. split.
    + intros [H1 H2]. split; [now apply zm_in_get|exact H2].
    + intros [H1 H2]. split; [now apply zm_get_in|exact H2].
  - intros fuel Lf. eapply range_query_spec; eauto using proper_dec, xlims.
Qed.

(** The tree stays balanced, no node overflows and none but the root is empty.  The minimum fanout is lost, see
    [C29_range_delete_min_fanout_refuted]. *)
Theorem C29_balanced {V} lim (s : st V) m : legal_limits lim -> xafter lim s m ->
  forall d n, below d (e_node (t_root (s_tree s))) n ->
    match n with Leaf _ => d = t_h (s_tree s) | Int _ => (d < t_h (s_tree s))%nat end /\
    (n_len n <= n_max lim n)%nat /\ (d <> O -> (1 <= n_len n)%nat).
Proof.
  intros L A d n B. apply (xafter_inv lim L) in A. destruct A as (nx & _ & G & _). unfold tgood in G. destruct (t_root (s_tree s)) as [rk rs rt rp rm rn].
  destruct G as (_&G&_&_&Ln&_). cbn [e_node] in B. destruct (good_below1 lim _ _ _ _ _ _ _ _ G B) as (H1 & H2 & lo' & hi' & ts' & te' & G').
  split; [destruct (t_h (s_tree s) - d)%nat eqn:E; destruct n; try destruct G'; lia|].
  destruct d.
  - inversion B; subst. split; [exact Ln|congruence].
  - specialize (H2 ltac:(discriminate)). destruct n; cbn in *; lia.
Qed.

(** With range deletions too, every address handed out is in the tree or was given back exactly once. *)
Theorem C29_no_leak_no_double_free {V} lim txg nx (xs : list (xop V)) s vs : legal_limits lim -> 0 <= txg -> Forall legal_xop xs ->
  xrun lim (init txg nx) xs = Some (s, vs) ->
  Permutation (map a_id (s_freed s ++ all_addrs (s_tree s))) (zrange nx (s_nx s)).
Proof.
  intros L T Lo R. destruct (xrun_inv lim L nx xs _ _ (xinit_inv lim txg nx T) Lo) as [[E _]|(s' & E & (_ & _ & _ & _ & I))]; [congruence|].
  rewrite R in E. injection E as <- _. exact I.
Qed.

(** * Examples *)

Definition exr_ops : list (xop Z) :=
  map (fun k => Base (Insert false (7 * k mod 61) k)) (zrange 0 61) ++
  [Base (Remove 30); Base Flush; Base Tick; RangeDelete (Inc 10) (Exc 35); Base Flush; Base (Insert false 12 0); RangeDelete (Exc 50) Unb;
   RangeDelete (Inc 9) (Inc 3)].
Example exr_legal : Forall legal_xop exr_ops /\ no_late_remove exr_ops.
Proof.
  split; [unfold exr_ops; apply Forall_app; split; [|repeat constructor; cbn; lia]|].
  - apply Forall_map, Forall_forall. intros k _. cbn [legal_xop legal_op]. apply Z.mod_pos_bound. lia.
  - unfold exr_ops. intros pre s e post E.
    assert (H : forall (ys : list (xop Z)) pre, Forall (fun x => match x with RangeDelete _ _ => False | _ => True end) ys ->
      forall zs, ys ++ zs = pre ++ RangeDelete s e :: post -> exists pre', zs = pre' ++ RangeDelete s e :: post).
    { induction ys as [|y ys IH]; intros pre0 F zs Eq; [exists pre0; exact Eq|]. inversion F; subst.
      destruct pre0 as [|q pre0]; cbn in Eq; injection Eq as -> Eq; [tauto|]. eapply IH; eauto. }
    destruct (fun F => H _ pre F _ E) as (pre' & E'); [apply Forall_map, Forall_forall; intros; exact I|]. clear E H.
    do 8 (destruct pre' as [|? pre']; cbn [app] in E'; [try discriminate; inversion E'; subst; repeat constructor; cbn; tauto|
      apply (f_equal (@tl _)) in E'; cbn [tl] in E']).
    destruct pre'; discriminate.
Qed.
Definition exr_st : st Z := match xrun ex_lim (init 3 100) exr_ops with Some (s, _) => s | None => init 0 0 end.
Example exr_after : xafter ex_lim exr_st (fst (xmap_run (fun _ => None) exr_ops)).
Proof.
  exists 3, 100, exr_ops, (snd (xmap_run (fun _ => None) exr_ops)), (snd (xmap_run (fun _ => None) exr_ops)).
  split; [lia|]. split; [apply exr_legal|]. split; [vm_compute; reflexivity|apply surjective_pairing].
Qed.
Example exr_nontrivial :
  (t_h (s_tree exr_st), length (s_freed exr_st), map fst (match range_query 100 (s_tree exr_st) (Some Unb) Unb with Some l => l | None => [] end))
  = (2%nat, 24%nat, zrange 0 10 ++ [12] ++ zrange 35 51).
Proof. vm_compute. reflexivity. Qed.
Example exr_remove : (match xstep ex_lim exr_st (RangeDelete (Inc 40) (Exc 48)) with
  | Some (s, _) => match xstep ex_lim s (Base (Remove 49)) with Some (_, v) => v | None => None end | None => None end) = Some 7.
Proof. vm_compute. reflexivity. Qed.

Print Assumptions C29_range_delete_as_map_partial.
Print Assumptions C29_any_history_as_map_partial.
Print Assumptions C29_remove_after_range_delete.
Print Assumptions C29_last_key_as_map.
Print Assumptions C29_range_as_map.
Print Assumptions C29_balanced.
Print Assumptions C29_no_leak_no_double_free.
