(** * Cleaning a zone of a B-tree: proofs *)
From Verif Require Import Common ZMap FSM_Model Tree_Model TreeRD_Model Tree_Inv Tree_Proofs Tree_Remove Tree_Range Tree_Flush TreeCZ_Model.
From Coq Require Import Permutation.

Section Clean.
Context {V : Type}.
Notation elem := (@elem V).
Notation node := (@node V).
Notation tree := (@tree V).
Context (lim : limits) (mi ml : nat) (HL : lims_ok lim mi ml).
Notation good := (@good V lim mi ml).
Notation egood := (@egood V lim mi ml).
Notation tgood := (@tgood V lim mi ml).

(** a node on disk: its level, the key of its element, its address *)
Fixpoint rec_in (h : nat) (n : node) (lv : nat) (k : Z) (a : addr) : Prop :=
  match h, n with
  | S h', Int cs => exists e, In e cs /\ ((lv = h' /\ k = e_key e /\ e_ptr e = Some a) \/ rec_in h' (e_node e) lv k a)
  | _, _ => False
  end.
Definition erec (h : nat) (e : elem) lv k a : Prop := (lv = h /\ k = e_key e /\ e_ptr e = Some a) \/ rec_in h (e_node e) lv k a.

Lemma rec_mid h l e r lv k a : rec_in (S h) (Int (l ++ e :: r)) lv k a <->
  rec_in (S h) (Int l) lv k a \/ erec h e lv k a \/ rec_in (S h) (Int r) lv k a.
Proof.
  cbn [rec_in]. split.
  - intros (c & I & H). apply in_app_or in I. destruct I as [I|[<-|I]]; [left; eauto|right; left; exact H|right; right; eauto].
  - intros [(c & I & H)|[H|(c & I & H)]]; [exists c|exists e|exists c]; (split; [apply in_or_app; cbn; auto|exact H]).
Qed.

Lemma rec_bounds h : forall lo hi ts te n lv k a, good h lo hi ts te n -> rec_in h n lv k a ->
  lo <= k /\ lt_opt k hi /\ (lv < h)%nat /\ ts <= a_txg a < te.
Proof.
  induction h as [|h IH]; intros lo hi ts te n lv k a G R; destruct n as [l|cs]; cbn [rec_in] in R; try contradiction.
  apply good_S in G. destruct G as [C F]. destruct R as (e & I & R). rewrite Forall_forall in F. destruct (F e I) as [F1 F2].
  apply in_split in I. destruct I as (l & r & ->). pose proof (chain_keys_ge _ _ _ _ C) as Hlo. apply Forall_app in Hlo. destruct Hlo as [_ Hlo]. inversion Hlo as [|? ? Hlo1 _]; subst.
  pose proof (chain_key_hi _ _ _ _ _ _ _ e C ltac:(apply in_or_app; right; now left)) as Hhi.
  pose proof C as C0. apply chain_mid in C. destruct C as (_ & _ & (E1 & E2 & E3 & E4 & E5) & Cr). destruct R as [(-> & -> & P)|R].
  - unfold ptr_ok in E4. rewrite P in E4. split; [lia|]. split; [exact Hhi|]. split; lia.
  - destruct (IH _ _ _ _ _ _ _ _ E5 R) as (A & B & D & T). split; [lia|]. split; [|split; lia].
    destruct r as [|c r]; [exact B|]. cbn [nextkey lt_opt] in B.
    pose proof (chain_key_hi _ _ _ _ _ _ _ c C0 ltac:(apply in_or_app; right; right; now left)) as Hc. destruct hi; cbn in *; [lia|exact Logic.I].
Qed.
Lemma rec_chain h lo hi cs lv k a : chain (egood h) lo hi cs -> rec_in (S h) (Int cs) lv k a -> lo <= k /\ lt_opt k hi /\ (lv <= h)%nat.
Proof.
  intros C R.
  assert (G : good (S h) lo hi (fold_right Z.min 0 (map e_ts cs)) (fold_right Z.max 0 (map e_te cs)) (Int cs)).
  { apply good_S. split; [exact C|]. clear. induction cs as [|e r IH]; constructor.
    - unfold tx_in; cbn; lia.
    - eapply Forall_impl; [|exact IH]. unfold tx_in; cbn. intros; lia. }
  destruct (rec_bounds _ _ _ _ _ _ _ _ _ G R) as (A & B & D & _). split; [exact A|]. split; [exact B|lia].
Qed.

(** ** The first pass *)
Section Pass1.
Context (bad : addr -> bool) (txs txe : Z).
Notation in_zone := (in_zone bad).

Lemma overlap_of (e : elem) t : e_ts e <= t < e_te e -> txs <= t < txe -> overlap txs txe e = true.
Proof. intros A B. unfold overlap, ranges_overlap. destruct (Z.leb_spec (e_te e) (e_ts e)), (Z.leb_spec txe txs), (Z.leb_spec (e_te e) txs), (Z.leb_spec txe (e_ts e)); cbn; lia. Qed.
Lemma overlap_of' (e : elem) t : e_ts e <= t < e_te e -> txs <= t < txe -> overlap' txs txe e = true.
Proof. intros A B. unfold overlap', ranges_overlap. destruct (Z.leb_spec txe txs), (Z.leb_spec (e_te e) (e_ts e)), (Z.leb_spec txe (e_ts e)), (Z.leb_spec (e_te e) txs); cbn; lia. Qed.

Lemma find_overlap_spec (cs : list elem) : forall i,
  match find_overlap txs txe cs i with
  | Some j => exists l e r, cs = l ++ e :: r /\ (j = i + length l)%nat /\ Forall (fun c => overlap txs txe c = false) l
  | None => Forall (fun c => overlap txs txe c = false) cs
  end.
Proof.
  induction cs as [|c cs IH]; intros i; cbn [find_overlap]; [constructor|]. destruct (overlap txs txe c) eqn:E.
  - exists [], c, cs. split; [reflexivity|]. split; [cbn; lia|constructor].
  - specialize (IH (S i)). destruct (find_overlap txs txe cs (S i)) as [j|]; [|now constructor].
    destruct IH as (l & e & r & -> & -> & F). exists (c :: l), e, r. split; [reflexivity|]. split; [cbn; lia|now constructor].
Qed.

(** the keys of all elements *)
Fixpoint ekeys (h : nat) (n : node) : list Z :=
  match h, n with S h', Int cs => flat_map (fun e => e_key e :: ekeys h' (e_node e)) cs | _, _ => [] end.

Definition found (e : nat) (cur : Z) (h : nat) (n : node) (l : list Z) (nx : option Z) : Prop :=
  forall k a, rec_in h n e k a -> bad a = true -> cur <= k -> In k l \/ exists k', nx = Some k' /\ k' <= k.

Lemma not_overlap_rec h lo hi cs lv k a : chain (egood h) lo hi cs -> Forall (fun c => overlap txs txe c = false) cs ->
  rec_in (S h) (Int cs) lv k a -> txs <= a_txg a < txe -> False.
Proof.
  intros C F (e & I & R) T. rewrite Forall_forall in F. specialize (F e I).
  destruct (chain_in _ _ _ _ _ C I) as (_ & nx & (_ & _ & _ & P & G)).
  assert (X : e_ts e <= a_txg a < e_te e).
  { destruct R as [(_ & _ & E)|R]; [unfold ptr_ok in P; rewrite E in P; lia|]. eapply rec_bounds in R; [|exact G]. lia. }
  rewrite (overlap_of e _ X T) in F. discriminate.
Qed.

Lemma get_dirty_r_spec e cur h : forall lo hi ts te n, good h lo hi ts te n -> nonempty n -> (e < h)%nat -> lt_opt cur hi ->
  (forall lv k a, rec_in h n lv k a -> bad a = true -> txs <= a_txg a < txe) ->
  exists l nx, get_dirty_r bad txs txe e cur h n hi = Some (l, nx) /\ le_opt nx hi /\ lt_opt cur nx /\
    (nx = hi \/ exists k, nx = Some k /\ In k (ekeys h n)) /\ found e cur h n l nx.
Proof.
  induction h as [|h IH]; intros lo hi ts te n G N He Hcur HB; [lia|]. destruct n as [l0|cs]; [destruct G|].
  apply good_S in G. destruct G as [C F]. cbn [get_dirty_r]. destruct (Nat.eqb_spec (S h) (S e)) as [Eq|Ne].
  - injection Eq as <-.
    assert (B : forallb (overlap' txs txe) (filter in_zone cs) = true).
    { apply forallb_forall. intros c Hc. apply filter_In in Hc. destruct Hc as [I Hz]. unfold TreeCZ_Model.in_zone in Hz. destruct (e_ptr c) as [a|] eqn:P; [|discriminate].
      destruct (chain_in _ _ _ _ _ C I) as (_ & nx & (_ & _ & _ & Q & _)). unfold ptr_ok in Q. rewrite P in Q.
      apply (overlap_of' c (a_txg a)); [lia|]. eapply (HB h (e_key c) a); [|exact Hz]. exists c. split; [exact I|]. left. auto. }
    rewrite B. eexists _, _. split; [reflexivity|]. split; [apply le_opt_refl|]. split; [exact Hcur|]. split; [now left|].
    intros k a (c & I & R) Hb _. left. destruct R as [(_ & -> & P)|R].
    + apply in_map. apply filter_In. split; [exact I|]. unfold TreeCZ_Model.in_zone. now rewrite P.
    + exfalso. destruct (chain_in _ _ _ _ _ C I) as (_ & nx & (_ & _ & _ & _ & G)). eapply rec_bounds in R; [|exact G]. lia.
  - assert (Hne : cs <> []) by (destruct cs; [destruct N|discriminate]).
    destruct (position_split _ _ _ _ cur C Hne) as (l & c & r & -> & -> & Hl & Hr).
    assert (Sk : skipn (length l) (l ++ c :: r) = c :: r) by (rewrite skipn_app, skipn_all, Nat.sub_diag; reflexivity). rewrite Sk.
    (* what lies left of the position is below the cursor *)
    assert (Left : forall k a, rec_in (S h) (Int l) e k a -> cur <= k -> False).
    { intros k a R Hk. apply chain_mid in C. destruct C as (Cl & _). destruct (rec_chain _ _ _ _ _ _ _ Cl R) as (_ & Hlt & _). cbn [lt_opt] in Hlt.
      destruct Hl as [->|Hl]; [destruct R as (? & [] & _)|lia]. }
    pose proof (find_overlap_spec (c :: r) (length l)) as FO. destruct (find_overlap txs txe (c :: r) (length l)) as [j|].
    2: { eexists _, _. split; [reflexivity|]. split; [apply le_opt_refl|]. split; [exact Hcur|]. split; [now left|].
         intros k a R Hb Hk. exfalso. apply rec_mid in R. destruct R as [R|R]; [eapply Left; eauto|].
         pose proof C as C0. apply chain_app in C0. destruct C0 as [_ C0].
         eapply (not_overlap_rec h _ _ (c :: r) e k a C0 FO).
         - apply (rec_mid h [] c r). right. exact R.
         - eapply HB; [apply rec_mid; right; exact R|exact Hb]. }
    destruct FO as (l2 & c2 & r2 & Er & -> & Fl2).
    assert (Eapp : l ++ c :: r = (l ++ l2) ++ c2 :: r2) by (rewrite <- app_assoc; cbn [app]; now rewrite Er).
    rewrite Eapp in *. rewrite <- app_length. rewrite nth_error_mid. cbn [obind].
    assert (Nx : match nth_error ((l ++ l2) ++ c2 :: r2) (S (length (l ++ l2))) with Some c' => Some (e_key c') | None => hi end = nextkey hi r2).
    { destruct r2 as [|c3 r2]; [|now rewrite nth_error_mid2]. rewrite (proj2 (nth_error_None _ _)); [reflexivity|]. rewrite app_length. cbn. lia. }
    rewrite Nx.
    pose proof C as C0. apply chain_mid in C0. destruct C0 as (Cl & Clo & (E1 & E2 & E3 & E4 & E5) & Cr).
    assert (Hc2 : lt_opt cur (nextkey hi r2)).
    { destruct r2 as [|c3 r2]; [exact Hcur|]. cbn [nextkey lt_opt] in *. destruct l2 as [|x l2].
      - cbn [app] in Er. injection Er as -> ->. exact Hr.
      - cbn [app] in Er. injection Er as -> ->. destruct l2 as [|y l2]; cbn [app nextkey lt_opt] in Hr; [lia|].
        rewrite <- app_assoc in C. cbn [app] in C. apply chain_app in C. destruct C as [_ C]. cbn [chain] in C. destruct C as (_ & _ & _ & _ & C).
        apply chain_keys_ge in C. rewrite Forall_forall in C. specialize (C c2 ltac:(apply in_or_app; right; now left)). lia. }
    destruct (IH (e_key c2) (nextkey hi r2) _ _ (e_node c2) E5) as (kl & nx & Hg & Hle & Hlt & Hin & Hf); [|lia|exact Hc2| |].
    { apply (len_ok_nonempty lim mi ml HL). exact E3. }
    { intros lv k a R Hb. eapply HB; [|exact Hb]. apply rec_mid. right. left. right. exact R. }
    exists kl, nx. split; [exact Hg|].
    assert (Hkey : lt_opt (e_key c2) hi) by (eapply chain_key_hi; [exact C|apply in_or_app; right; now left]).
    assert (Hnk : le_opt (nextkey hi r2) hi).
    { destruct r2 as [|c3 r2]; [apply le_opt_refl|]. cbn [nextkey].
      pose proof (chain_key_hi _ _ _ _ _ _ _ c3 C ltac:(apply in_or_app; right; right; now left)) as X. destruct hi; cbn in *; [lia|exact Logic.I]. }
    split; [destruct hi as [y|]; [|exact Logic.I]; cbn in *; destruct (nextkey (Some y) r2), nx; cbn in *; try contradiction; lia|].
    split; [exact Hlt|]. split.
    + destruct Hin as [->|(k & -> & Hk)].
      * destruct r2 as [|c3 r2]; [now left|]. right. exists (e_key c3). split; [reflexivity|]. cbn [ekeys]. apply in_flat_map. exists c3. split; [apply in_or_app; right; right; now left|now left].
      * right. exists k. split; [reflexivity|]. cbn [ekeys]. apply in_flat_map. exists c2. split; [apply in_or_app; right; now left|now right].
    + intros k a R Hb Hk. apply rec_mid in R. destruct R as [R|[R|R]].
      * exfalso. assert (Rx : rec_in (S h) (Int l) e k a \/ rec_in (S h) (Int l2) e k a).
        { destruct R as (x & I & R). apply in_app_or in I. destruct I as [I|I]; [left|right]; exists x; auto. }
        destruct Rx as [Rx|Rx]; [eapply Left; eauto|]. apply chain_app in Cl. destruct Cl as [_ Cl].
        eapply (not_overlap_rec h _ _ l2 e k a Cl Fl2 Rx). eapply HB; [apply rec_mid; left; exact R|exact Hb].
      * destruct R as [(-> & _)|R]; [lia|]. eapply Hf; eauto.
      * right. destruct r2 as [|c3 r2]; [destruct R as (? & [] & _)|].
        assert (Cr' : chain (egood h) (e_key c3) hi (c3 :: r2)) by (destruct Cr as (X & Y & Z); split; [lia|]; split; [exact Y|exact Z]).
        destruct (rec_chain _ _ _ _ _ _ _ Cr' R) as (X & _ & _). cbn [nextkey] in Hle. destruct nx as [y|]; cbn in Hle; [|contradiction]. exists y. split; [reflexivity|lia].
Qed.

(** The root's range is not kept up to date by a cleaning; the other operations do not depend on its end. *)
Definition raise (T : Z) (t : tree) : tree := let 'Elem k s _ p m n := t_root t in Tree (Elem k s (T + 1) p m n) (t_h t).
Definition rgood (T : Z) (t : tree) : Prop := tgood T (raise T t).
Definition trec (t : tree) lv k a : Prop := erec (t_h t) (t_root t) lv k a.

Lemma rgood_parts T t : rgood T t -> e_key (t_root t) = 0 /\ good (t_h t) 0 None (e_ts (t_root t)) (T + 1) (e_node (t_root t)) /\ e_ts (t_root t) <= T /\
  (n_len (e_node (t_root t)) <= n_max lim (e_node (t_root t)))%nat /\ nonempty (e_node (t_root t)) /\
  match e_ptr (t_root t) with None => True | Some a => e_ts (t_root t) <= a_txg a < T + 1 /\ clean (t_h t) (e_node (t_root t)) end.
Proof. unfold rgood, raise, Tree_Proofs.tgood. destruct (t_root t) as [k s te p m n]. cbn. tauto. Qed.
Lemma rgood_of T t : e_key (t_root t) = 0 -> good (t_h t) 0 None (e_ts (t_root t)) (T + 1) (e_node (t_root t)) -> e_ts (t_root t) <= T ->
  (n_len (e_node (t_root t)) <= n_max lim (e_node (t_root t)))%nat -> nonempty (e_node (t_root t)) ->
  match e_ptr (t_root t) with None => True | Some a => e_ts (t_root t) <= a_txg a < T + 1 /\ clean (t_h t) (e_node (t_root t)) end -> rgood T t.
Proof. unfold rgood, raise, Tree_Proofs.tgood. destruct (t_root t) as [k s te p m n]. cbn. intros. repeat split; auto; lia. Qed.

Lemma filter_shrink {A} (f g : A -> bool) l x : In x l -> f x = true -> g x = false -> (forall y, g y = true -> f y = true) ->
  (length (filter g l) < length (filter f l))%nat.
Proof.
  intros I Fx Gx H. assert (Le : forall l, (length (filter g l) <= length (filter f l))%nat).
  { clear - H. induction l as [|y l IH]; cbn; [lia|]. destruct (g y) eqn:E; [rewrite (H y E); cbn; lia|destruct (f y); cbn; lia]. }
  apply in_split in I. destruct I as (a & b & ->). rewrite !filter_app, !app_length. cbn [filter]. rewrite Fx, Gx. cbn [length].
  pose proof (Le a). pose proof (Le b). lia.
Qed.

Definition ahead (t : tree) (cur : Z) : nat := length (filter (fun k => cur <? k) (ekeys (t_h t) (e_node (t_root t)))).
Lemma pass1_spec T t e : rgood T t -> (e <= t_h t)%nat -> (forall lv k a, trec t lv k a -> bad a = true -> txs <= a_txg a < txe) ->
  forall m cur, (ahead t cur <= m)%nat -> cur <= 0 \/ e <> t_h t ->
  exists l, (forall fuel, (m < fuel)%nat -> pass1 bad fuel txs txe e cur t = Some l) /\
    forall k a, trec t e k a -> bad a = true -> cur <= k -> In k l.
Proof.
  intros G He HB. apply rgood_parts in G. destruct G as (K0 & G & _ & _ & N & _).
  induction m as [m IH] using lt_wf_ind. intros cur Hm Hcur.
  destruct (Nat.eqb_spec (t_h t) e) as [Eh|Nh].
  - eexists. split.
    + intros fuel Hf. destruct fuel as [|fuel]; [lia|]. cbn [pass1]. unfold get_dirty. rewrite Eh, Nat.eqb_refl. cbn [obind]. reflexivity.
    + intros k a R Hb Hk. destruct R as [(_ & -> & P)|R].
      * unfold TreeCZ_Model.in_zone. rewrite P, Hb. now left.
      * exfalso. eapply rec_bounds in R; [|exact G]. lia.
  - destruct (get_dirty_r_spec e cur (t_h t) _ _ _ _ _ G N ltac:(lia) Logic.I) as (l & nx & Hg & _ & Hlt & Hin & Hf).
    { intros lv k a R. apply HB with (lv := lv) (k := k). right. exact R. }
    assert (Hgd : get_dirty bad txs txe e cur t = Some (l, nx)) by (unfold get_dirty; destruct (Nat.eqb_spec (t_h t) e); [lia|exact Hg]).
    destruct nx as [k1|].
    + destruct Hin as [Hin|(k & [= <-] & Hin)]; [discriminate|]. cbn [lt_opt] in Hlt.
      assert (Sh : (ahead t k1 < ahead t cur)%nat).
      { apply (filter_shrink _ _ _ k1 Hin); [lia|lia|]. intros y Hy. lia. }
      destruct (IH (ahead t k1) ltac:(lia) k1 ltac:(lia)) as (l2 & H2 & F2); [right; lia|].
      exists (l ++ l2). split.
      * intros fuel Hf'. destruct fuel as [|fuel]; [lia|]. cbn [pass1]. rewrite Hgd. cbn [obind]. rewrite H2 by lia. reflexivity.
      * intros k a R Hb Hk. apply in_or_app. destruct R as [(X & _)|R]; [lia|]. destruct (Hf k a R Hb Hk) as [X|(k' & [= <-] & X)]; [now left|].
        right. apply (F2 k a); [right; exact R|exact Hb|exact X].
    + exists l. split.
      * intros fuel Hf'. destruct fuel as [|fuel]; [lia|]. cbn [pass1]. rewrite Hgd. reflexivity.
      * intros k a R Hb Hk. destruct R as [(X & _)|R]; [lia|]. destruct (Hf k a R Hb Hk) as [X|(k' & X & _)]; [exact X|discriminate].
Qed.
End Pass1.

(** ** The second pass *)
Section Pass2.
Context (txg : Z).
Definition newaddrs (nx nx' : Z) : list addr := map (fun i => Addr i txg) (zrange nx nx').
Lemma newaddrs_nil nx : newaddrs nx nx = [].
Proof. unfold newaddrs. now rewrite zrange_empty by lia. Qed.
Lemma newaddrs_one nx : newaddrs nx (nx + 1) = [Addr nx txg].
Proof. unfold newaddrs. rewrite zrange_cons by lia. rewrite zrange_empty by lia. reflexivity. Qed.
Lemma newaddrs_app a b c : a <= b <= c -> newaddrs a c = newaddrs a b ++ newaddrs b c.
Proof. intros H. unfold newaddrs. rewrite (zrange_split a b c) by lia. apply map_app. Qed.

(** a record after a rewriting at [(e, key)]: new, or an old one that is not the target's *)
Definition moved (old : nat -> Z -> addr -> Prop) (e : nat) (key nx nx' : Z) (lv : nat) (k : Z) (a : addr) : Prop :=
  (nx <= a_id a < nx' /\ a_txg a = txg) \/ (old lv k a /\ ~ (lv = e /\ k = key)).

Lemma perm_chain {A} (o p L X' R N X : list A) : Permutation (p ++ X') (N ++ X) -> Permutation ((o ++ p) ++ L ++ X' ++ R) (N ++ L ++ (o ++ X) ++ R).
Proof.
  intros H. rewrite (perm_mid o p (N ++ X) X' L R H). rewrite (Permutation_app_swap_app o N X), <- app_assoc.
  apply (Permutation_app_swap_app L N).
Qed.
Lemma rewrite_r_spec e key h : forall nx lo hi ts n, good h lo hi ts (txg + 1) n -> nonempty n -> (e < h)%nat ->
  exists n' nx' p, rewrite_r txg nx e key h n = Some (n', nx', p) /\ good h lo hi ts (txg + 1) n' /\ n_len n' = n_len n /\ nonempty n' /\ len_ok lim mi ml n' = len_ok lim mi ml n /\
    n_max lim n' = n_max lim n /\ flat h n' = flat h n /\ nx <= nx' /\ Permutation (p ++ addrs_below h n') (newaddrs nx nx' ++ addrs_below h n) /\
    forall lv k a, rec_in h n' lv k a -> moved (rec_in h n) e key nx nx' lv k a.
Proof.
  induction h as [|h IH]; intros nx lo hi ts n G N He; [lia|]. destruct n as [l0|cs]; [destruct G|].
  apply good_S in G. destruct G as [C F]. cbn [rewrite_r].
  assert (Hne : cs <> []) by (destruct cs; [destruct N|discriminate]).
  destruct (position_split _ _ _ _ key C Hne) as (l & c & r & -> & -> & Hl & Hr).
  pose proof C as C0. apply chain_mid in C0. destruct C0 as (Cl & Clo & (E1 & E2 & E3 & E4 & E5) & Cr).
  (* neither to the left nor to the right is there anything at the target's place *)
  assert (Side : forall lv k a, rec_in (S h) (Int l) lv k a \/ rec_in (S h) (Int r) lv k a -> k <> key).
  { intros lv k a [R|R].
    - destruct (rec_chain _ _ _ _ _ _ _ Cl R) as (_ & X & _). cbn [lt_opt] in X. destruct Hl as [->|Hl]; [destruct R as (? & [] & _)|lia].
    - destruct r as [|c3 r]; [destruct R as (? & [] & _)|]. cbn [nextkey lt_opt] in Hr.
      assert (Cr' : chain (egood h) (e_key c3) hi (c3 :: r)) by (destruct Cr as (X & Y & Z); split; [lia|]; split; [exact Y|exact Z]).
      destruct (rec_chain _ _ _ _ _ _ _ Cr' R) as (X & _ & _). lia. }
  destruct (Nat.eqb_spec h e) as [<-|Ne].
  - rewrite nth_error_mid. cbn [obind]. pose proof F as F0. apply Forall_mid in F0. destruct F0 as (Fl & (Fs & Fe) & Fr).
    destruct c as [k0 s te0 [a0|] m n0]; cbn [e_key e_ts e_te e_ptr e_node] in *.
    + set (start := if (S h =? 1)%nat then txg else s). rewrite put_child_mid.
      unfold ptr_ok in E4. cbn [e_ptr e_ts e_te e_node] in E4.
      assert (Hs : s <= start <= txg) by (unfold start; destruct (S h =? 1)%nat; lia).
      assert (G' : good h k0 (nextkey hi r) start (txg + 1) n0).
      { unfold start. destruct (Nat.eqb_spec (S h) 1) as [H1|H1].
        - assert (h = O) by lia. subst h. destruct n0; [exact E5|destruct E5].
        - eapply good_weaken; [exact E5|lia|apply le_opt_refl|lia|lia]. }
      eexists _, _, _. split; [reflexivity|]. split.
      { apply good_S. split; [eapply chain_replace; [exact C|reflexivity|]|apply Forall_mid; split; [exact Fl|split; [unfold tx_in; cbn; lia|exact Fr]]].
        unfold Tree_Inv.egood. cbn [e_key e_ts e_te e_node]. split; [exact E1|]. split; [lia|]. split; [exact E3|]. split; [|exact G'].
        unfold ptr_ok. cbn. split; [lia|apply E4]. }
      cbn [n_len]. rewrite !app_length. split; [reflexivity|]. split; [destruct l; exact Logic.I|]. split; [cbn [len_ok]; rewrite !app_length; reflexivity|]. split; [reflexivity|].
      split; [rewrite !flat_Int, !flats_app, !flats_cons; reflexivity|]. split; [lia|]. split.
      { rewrite newaddrs_one, !addrs_Int, !addrs_mid, !addrs_e. cbn [e_ptr e_node opt_list app].
        rewrite <- !Permutation_middle. apply perm_swap. }
      intros lv k a R. apply rec_mid in R. destruct R as [R|[R|R]].
      * right. split; [apply rec_mid; now left|]. intros (_ & X). eapply Side; eauto.
      * destruct R as [(-> & -> & P)|R]; cbn [e_key e_ptr e_node] in *.
        -- injection P as <-. left. cbn. lia.
        -- right. split; [apply rec_mid; right; left; right; exact R|]. intros (-> & _). eapply rec_bounds in R; [|exact E5]. lia.
      * right. split; [apply rec_mid; now right; right|]. intros (_ & X). eapply Side; eauto.
    + eexists _, _, _. split; [reflexivity|]. split; [apply good_S; auto|]. split; [reflexivity|]. split; [exact N|]. split; [reflexivity|]. split; [reflexivity|]. split; [reflexivity|].
      split; [lia|]. split; [rewrite newaddrs_nil; reflexivity|]. intros lv k a R. right. split; [exact R|]. intros (-> & ->).
      apply rec_mid in R. destruct R as [R|[R|R]]; [eapply Side; eauto| |eapply Side; eauto].
      destruct R as [(_ & _ & P)|R]; [discriminate P|]. eapply rec_bounds in R; [|exact E5]. lia.
  - destruct (xlock_at_mid lim mi ml HL txg _ _ _ _ _ _ _ C F) as (c' & Hx & C1 & F1 & [Lk1 Lk2] & Q1 & Q2 & Perm).
    rewrite Hx. cbn [obind]. pose proof C1 as C2. apply chain_mid in C2. destruct C2 as (_ & _ & (D1 & D2 & D3 & D4 & D5) & _). rewrite Lk2 in D5.
    destruct (IH nx _ _ _ _ D5) as (n' & nx' & p & Hw & G' & Hlen & Hne' & Hlok & Hmax & Hflat & Hnx & Hperm & Hrec); [|lia|].
    { apply (len_ok_nonempty lim mi ml HL). exact D3. }
    rewrite Hw. cbn [obind]. rewrite put_child_mid. destruct c' as [k1 s1 t1 p1 m1 n1]. cbn [set_node e_key e_ts e_te e_ptr e_node] in *. subst p1 n1 k1 t1.
    eexists _, _, _. split; [reflexivity|]. split.
    { apply good_S. split; [eapply chain_replace; [exact C1|reflexivity|]|].
      - unfold Tree_Inv.egood. cbn [e_key e_ts e_te e_node]. split; [exact D1|]. split; [exact D2|]. split; [rewrite Hlok; exact D3|]. split; [exact Logic.I|exact G'].
      - apply Forall_mid in F1. apply Forall_mid. destruct F1 as (Fl & Fm & Fr). split; [exact Fl|]. split; [exact Fm|exact Fr]. }
    cbn [n_len]. rewrite !app_length. split; [reflexivity|]. split; [destruct l; exact Logic.I|]. split; [cbn [len_ok]; rewrite !app_length; reflexivity|]. split; [reflexivity|].
    split; [rewrite !flat_Int, !flats_app, !flats_cons; cbn [e_node]; now rewrite Hflat|]. split; [exact Hnx|]. split.
    { rewrite !addrs_Int, !addrs_mid in *. rewrite !addrs_e in *. cbn [e_ptr e_node opt_list app] in *.
      apply perm_chain. exact Hperm. }
    intros lv k a R. apply rec_mid in R. destruct R as [R|[R|R]].
    + right. split; [apply rec_mid; now left|]. intros (_ & X). eapply Side; eauto.
    + destruct R as [(-> & -> & P)|R]; cbn [e_key e_ptr e_node] in *; [discriminate P|].
      destruct (Hrec lv k a R) as [X|(X & Y)]; [now left|]. right. split; [apply rec_mid; right; left; right; exact X|exact Y].
    + right. split; [apply rec_mid; now right; right|]. intros (_ & X). eapply Side; eauto.
Qed.

Definition okstep (t t' : tree) (nx nx' : Z) (p : list addr) : Prop :=
  rgood txg t' /\ t_h t' = t_h t /\ contents t' = contents t /\ nx <= nx' /\ Permutation (p ++ all_addrs t') (newaddrs nx nx' ++ all_addrs t).
Lemma okstep_refl t nx : rgood txg t -> okstep t t nx nx [].
Proof. intros G. split; [exact G|]. split; [reflexivity|]. split; [reflexivity|]. split; [lia|]. now rewrite newaddrs_nil. Qed.
Lemma okstep_trans t1 t2 t3 n1 n2 n3 p q : okstep t1 t2 n1 n2 p -> okstep t2 t3 n2 n3 q -> okstep t1 t3 n1 n3 (p ++ q).
Proof.
  intros (A1 & A2 & A3 & A4 & A5) (B1 & B2 & B3 & B4 & B5). split; [exact B1|]. split; [congruence|]. split; [congruence|]. split; [lia|].
  rewrite <- app_assoc, B5, (newaddrs_app n1 n2 n3) by lia. rewrite (Permutation_app_swap_app p), A5, !app_assoc. apply Permutation_app_tail, Permutation_app_comm.
Qed.

Lemma rewrite_spec e key nx t : rgood txg t -> (e <= t_h t)%nat -> exists t' nx' p, rewrite txg nx e key t = Some (t', nx', p) /\ okstep t t' nx nx' p /\
  forall lv k a, trec t' lv k a -> (nx <= a_id a < nx') \/ (trec t lv k a /\ ~ (lv = e /\ (k = key \/ e = t_h t))).
Proof.
  intros G0 He. pose proof (rgood_parts _ _ G0) as (K0 & G & Hs & Hl & N & P). unfold rewrite, okstep, trec, contents, all_addrs. destruct t as [[rk rs rt rp rm rn] h].
  cbn [t_h t_root e_key e_ts e_te e_ptr e_node] in *. destruct (Nat.eqb_spec h e) as [<-|Ne].
  - destruct rp as [a0|].
    + eexists _, _, _. split; [reflexivity|]. cbn [t_h t_root e_node]. split.
      * split; [apply rgood_of; cbn; auto; split; [lia|apply P]|]. split; [reflexivity|]. split; [reflexivity|]. split; [lia|].
        rewrite newaddrs_one, !addrs_e. cbn [e_ptr e_node opt_list app]. apply perm_swap.
      * intros lv k a [(-> & -> & X)|R]; cbn [e_key e_ptr e_node] in *.
        -- injection X as <-. left. cbn. lia.
        -- right. split; [right; exact R|]. intros (-> & _). eapply rec_bounds in R; [|exact G]. lia.
    + eexists _, _, _. split; [reflexivity|]. cbn [t_h t_root e_node]. split.
      * split; [exact G0|]. split; [reflexivity|]. split; [reflexivity|]. split; [lia|]. now rewrite newaddrs_nil.
      * intros lv k a [(-> & -> & X)|R]; [discriminate X|]. right. split; [right; exact R|]. intros (-> & _). eapply rec_bounds in R; [|exact G]. lia.
  - cbn [xlock_root e_node]. destruct (rewrite_r_spec e key h nx _ _ _ _ G N ltac:(lia)) as (n' & nx' & p & Hw & G' & Hlen & Hne & _ & Hmax & Hflat & Hnx & Hperm & Hrec).
    rewrite Hw. cbn [obind set_node]. eexists _, _, _. split; [reflexivity|]. cbn [t_h t_root e_node]. split.
    + split; [apply rgood_of; cbn; auto; lia|]. split; [reflexivity|]. split; [exact Hflat|]. split; [exact Hnx|].
      rewrite !addrs_e. cbn [e_ptr e_node opt_list app]. rewrite <- app_assoc, Hperm.
      replace (match rp with Some a => [a] | None => [] end) with (opt_list rp) by (destruct rp; reflexivity). apply Permutation_app_swap_app.
    + intros lv k a [(-> & -> & X)|R]; [discriminate X|]. cbn [e_node] in R. destruct (Hrec lv k a R) as [(X & _)|(X & Y)]; [left; exact X|].
      right. split; [right; exact X|]. intros (-> & [->|Z]); [apply Y; auto|lia].
Qed.

Lemma rewrite_all_spec e : forall keys nx t, rgood txg t -> (e <= t_h t)%nat -> exists t' nx' p, rewrite_all txg nx e keys t = Some (t', nx', p) /\ okstep t t' nx nx' p /\
  forall lv k a, trec t' lv k a -> (nx <= a_id a < nx') \/ (trec t lv k a /\ ~ (lv = e /\ In k keys)).
Proof.
  induction keys as [|key keys IH]; intros nx t G He; cbn [rewrite_all].
  - eexists _, _, _. split; [reflexivity|]. split; [now apply okstep_refl|]. intros lv k a R. right. split; [exact R|]. intros (_ & []).
  - destruct (rewrite_spec e key nx t G He) as (t1 & n1 & p1 & E1 & O1 & R1). rewrite E1. cbn [obind].
    destruct (IH n1 t1) as (t2 & n2 & p2 & E2 & O2 & R2); [apply O1|destruct O1 as (_ & -> & _); exact He|]. rewrite E2. cbn [obind].
    eexists _, _, _. split; [reflexivity|]. split; [eapply okstep_trans; eauto|].
    pose proof O1 as (_ & _ & _ & Hn1 & _). pose proof O2 as (_ & _ & _ & Hn2 & _).
    intros lv k a R. destruct (R2 lv k a R) as [X|(X & Y)]; [left; lia|]. destruct (R1 lv k a X) as [Z|(Z & W)]; [left; lia|].
    right. split; [exact Z|]. intros (-> & [<-|I]); [apply W; auto|apply Y; auto].
Qed.

Section Whole.
Context (bad : addr -> bool) (txs txe : Z) (order : nat -> list Z -> list Z) (Ho : forall e l, Permutation (order e l) l).

Lemma clean_from_spec : forall n e nx t, rgood txg t -> (e + n = S (t_h t))%nat -> (forall a, nx <= a_id a -> bad a = false) ->
  (forall lv k a, trec t lv k a -> bad a = true -> txs <= a_txg a < txe) -> (forall lv k a, (lv < e)%nat -> trec t lv k a -> bad a = false) ->
  exists N t' nx' p, (forall fuel, (N <= fuel)%nat -> clean_from bad fuel order txs txe txg nx e n t = Some (t', nx', p)) /\ okstep t t' nx nx' p /\
    forall lv k a, trec t' lv k a -> bad a = false.
Proof.
  induction n as [|n IH]; intros e nx t G En Hnew Hcov Hlow.
  - exists O, t, nx, []. split; [reflexivity|]. split; [now apply okstep_refl|]. intros lv k a R. apply (Hlow lv k a); [|exact R].
    destruct R as [(-> & _)|R]; [lia|]. pose proof (rgood_parts _ _ G) as (_ & G' & _). eapply rec_bounds in R; [|exact G']. lia.
  - destruct (pass1_spec bad txs txe txg t e G ltac:(lia) Hcov (ahead t 0) 0 ltac:(lia) ltac:(left; lia)) as (keys & Hp & Hf).
    destruct (rewrite_all_spec e (order e keys) nx t G ltac:(lia)) as (t1 & n1 & p1 & E1 & O1 & R1). pose proof O1 as (G1 & H1 & _ & Hn1 & _).
    assert (Hold : forall lv k a, trec t1 lv k a -> bad a = true -> trec t lv k a /\ ~ (lv = e /\ In k (order e keys))).
    { intros lv k a R Hb. destruct (R1 lv k a R) as [X|X]; [|exact X]. rewrite (Hnew a ltac:(lia)) in Hb. discriminate. }
    destruct (IH (S e) n1 t1 G1) as (N & t2 & n2 & p2 & E2 & O2 & R2); [lia|intros a Ha; apply Hnew; lia| | |].
    + intros lv k a R Hb. apply (Hcov lv k a); [|exact Hb]. now apply Hold.
    + intros lv k a Hlv R. destruct (bad a) eqn:Hb; [|reflexivity]. exfalso. destruct (Hold lv k a R Hb) as (X & Y).
      destruct (Nat.eq_dec lv e) as [->|Nlv].
      * apply Y. split; [reflexivity|]. eapply Permutation_in; [symmetry; apply Ho|]. apply (Hf k a X Hb).
        pose proof (rgood_parts _ _ G) as (K0 & G' & _). destruct X as [(_ & -> & _)|X]; [lia|]. eapply rec_bounds in X; [|exact G']. lia.
      * rewrite (Hlow lv k a ltac:(lia) X) in Hb. discriminate.
    + exists (Nat.max (S (ahead t 0)) N), t2, n2, (p1 ++ p2). split; [|split; [eapply okstep_trans; eauto|exact R2]].
      intros fuel Hfu. cbn [clean_from]. rewrite Hp by lia. cbn [obind]. rewrite E1. cbn [obind]. rewrite E2 by lia. reflexivity.
Qed.
Lemma clean_zone_spec nx t : rgood txg t -> (forall a, nx <= a_id a -> bad a = false) -> (forall lv k a, trec t lv k a -> bad a = true -> txs <= a_txg a < txe) ->
  exists N t' nx' p, (forall fuel, (N <= fuel)%nat -> clean_zone bad fuel order txs txe txg nx t = Some (t', nx', p)) /\ okstep t t' nx nx' p /\
    forall lv k a, trec t' lv k a -> bad a = false.
Proof. intros G Hn Hc. apply (clean_from_spec (S (t_h t)) 0 nx t G eq_refl Hn Hc). intros; lia. Qed.
End Whole.
End Pass2.

(** ** The other operations do not depend on the end of the root's range *)
Lemma rgood_mono T T' t : T <= T' -> rgood T t -> rgood T' t.
Proof.
  intros L G. apply rgood_parts in G. destruct G as (A & B & C & D & E & F). apply rgood_of; auto; [|lia|].
  - eapply good_weaken; [exact B|lia|exact Logic.I|lia|lia].
  - destruct (e_ptr (t_root t)); [|exact Logic.I]. split; [lia|apply F].
Qed.
Lemma tgood_rgood T t : tgood T t -> rgood T t.
Proof.
  intros G. unfold Tree_Proofs.tgood in G. apply rgood_of; destruct (t_root t) as [k s te p m n]; cbn in *; destruct G as (A & B & C & D & E & F & P); auto.
  - eapply good_weaken; [exact B|lia|exact Logic.I|lia|lia].
  - destruct p; [|exact Logic.I]. split; [lia|apply P].
Qed.
Lemma raise_contents T t : contents (raise T t) = contents t.
Proof. unfold contents, raise. destruct t as [[k s te p m n] h]. reflexivity. Qed.
Lemma raise_addrs T t : all_addrs (raise T t) = all_addrs t.
Proof. unfold all_addrs, raise. destruct t as [[k s te p m n] h]. reflexivity. Qed.
Lemma insert_raise T seq txg k v t : insert lim seq txg k v (raise T t) = insert lim seq txg k v t.
Proof. unfold insert, raise. destruct t as [[rk s te p m n] h]. reflexivity. Qed.
Lemma remove_raise T txg k t : remove lim txg k (raise T t) = remove lim txg k t.
Proof. unfold remove, xlock_and_merge_root, raise. destruct t as [[rk s te p m n] h]. reflexivity. Qed.
Lemma get_raise T k t : get (raise T t) k = get t k.
Proof. unfold get, raise. destruct t as [[rk s te p m n] h]. reflexivity. Qed.

(** a flush of a tree whose root is on disk does nothing; otherwise the end of the root's range is set first *)
Lemma flush_raise T txg nx t : e_ptr (t_root t) = None -> flush txg nx (raise T t) = flush txg nx t.
Proof.
  destruct t as [[rk s te p m n] h]. cbn [t_root e_ptr]. intros ->. unfold flush, raise. cbn [t_root t_h]. cbn [e_node].
  match goal with |- flush_loop ?f _ _ _ _ = flush_loop ?g _ _ _ _ => change g with f; generalize f end. intros f.
  destruct f as [|f]; [reflexivity|]. cbn [flush_loop]. unfold flush_iter. cbn [t_root t_h is_dirty e_ptr xlock_root]. reflexivity.
Qed.
End Clean.
