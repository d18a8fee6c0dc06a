(** Extended attributes: the tree of attributes is the hash table of C33, and records are neither lost nor freed twice. *)
From Verif Require Import Common ZMap FSKey_Model FSKey_Props HTable_Model HTable_Props XAttr_Model.
From Coq Require Import Permutation.

(** * Names *)
Lemma bytes_eqb_eq a : forall b, bytes_eqb a b = true <-> a = b.
Proof.
  induction a as [|x a IH]; intros [|y b]; cbn [bytes_eqb]; try easy.
  rewrite andb_true_iff, IH, Z.eqb_eq. split; [intros [-> ->]; reflexivity|intros H; now inversion H].
Qed.
Lemma xsame_spec a b : xsame a b = true <-> a = b.
Proof.
  unfold xsame. rewrite andb_true_iff, bytes_eqb_eq. destruct a as [na a], b as [nb b]; cbn [fst snd].
  destruct na, nb; cbn; split; intros H; try (destruct H; easy); try (destruct H as [_ H]; now rewrite H); try (inversion H; auto).
Qed.

(** * Values and records *)
Definition bytes (recs : list (Z * list Z)) (v : xval) : list Z :=
  match v with Inl b => b | Blb r _ => match zm_get r recs with Some b => b | None => [] end end.
Definition rids (l : list xval) : list Z := flat_map (fun v => match v with Blb r _ => [r] | Inl _ => [] end) l.
Definition cvals {V} (c : @cell xname V) : list V := map snd (cell_items c).
Definition tv (tab : list (Z * @cell xname xval)) : list xval := flat_map (fun p => cvals (snd p)) tab.
Definition ovals (c : option (@cell xname xval)) : list xval := match c with Some c => cvals c | None => [] end.
Definition vlen (recs : list (Z * list Z)) (v : xval) : Prop :=
  match v with Inl _ => True | Blb r l => exists b, zm_get r recs = Some b /\ l = u32 (zlen b) end.

Record W (recs : list (Z * list Z)) (nx : Z) (fr : list Z) (vs : list xval) : Prop := mkW {
  w_ok : zm_ok recs;
  w_refs : Permutation (rids vs) (map fst recs);
  w_all : Permutation (map fst recs ++ fr) (zrange 0 nx);
  w_nx : 0 <= nx;
  w_len : Forall (vlen recs) vs }.
Definition wfx (e : list xval) (d : xs) : Prop := zm_ok (x_tab d) /\ W (x_recs d) (x_next d) (x_freed d) (tv (x_tab d) ++ e).
Definition wf (d : xs) : Prop := wfx [] d.

Lemma rids_app a b : rids (a ++ b) = rids a ++ rids b. Proof. apply flat_map_app. Qed.
Lemma rids_perm a b : Permutation a b -> Permutation (rids a) (rids b).
Proof. apply Permutation_flat_map. Qed.
Lemma W_perm recs nx fr a b : Permutation a b -> W recs nx fr a -> W recs nx fr b.
Proof.
  intros P [A B C D E]. constructor; auto.
  - rewrite <- (rids_perm _ _ P). exact B.
  - rewrite Forall_forall in *. intros v Hv. apply E. eapply Permutation_in; [symmetry; exact P|exact Hv].
Qed.

Lemma zm_keys_nodup {A} (m : list (Z * A)) : zm_ok m -> NoDup (map fst m).
Proof.
  induction m as [|[k v] r IH]; cbn [map fst]; intros H; [constructor|]. apply zm_ok_cons in H. destruct H as [H1 H2].
  constructor; [|auto]. intros Hin. apply in_map_iff in Hin. destruct Hin as (p & E & Hp). rewrite Forall_forall in H2.
  specialize (H2 p Hp). cbn in *. lia.
Qed.
Lemma zm_del_perm {A} k (v : A) m : zm_get k m = Some v -> Permutation m ((k, v) :: zm_del k m).
Proof.
  induction m as [|[k' v'] r IH]; cbn [zm_get zm_del]; [easy|]. destruct (Z.eqb_spec k k') as [->|Hne].
  - intros [= ->]. reflexivity.
  - intros H. rewrite perm_swap. apply perm_skip. auto.
Qed.
Lemma zm_set_perm {A} k (v : A) m : zm_ok m -> Permutation (zm_set k v m) ((k, v) :: zm_del k m).
Proof.
  induction m as [|[k' v'] r IH]; cbn [zm_set zm_del]; [reflexivity|]. intros H. apply zm_ok_cons in H. destruct H as [H1 H2].
  destruct (Z.ltb_spec k k').
  - destruct (Z.eqb_spec k k'); [lia|]. apply perm_skip, perm_skip.
    assert (E : zm_del k r = r); [|now rewrite E]. clear -H H2.
    induction r as [|[j w] r IH]; [reflexivity|]. cbn [zm_del]. inversion H2; subst. cbn in *. destruct (Z.eqb_spec k j); [lia|]. now rewrite IH.
  - destruct (Z.eqb_spec k k') as [->|Hne]; [reflexivity|]. rewrite IH by auto. apply perm_swap.
Qed.
Lemma zm_del_none {A} k (m : list (Z * A)) : zm_get k m = None -> zm_del k m = m.
Proof.
  induction m as [|[k' v'] r IH]; cbn [zm_get zm_del]; [easy|]. destruct (k =? k'); [easy|]. intros H. now rewrite IH.
Qed.

Lemma tv_perm a b : Permutation a b -> Permutation (tv a) (tv b).
Proof. apply Permutation_flat_map. Qed.
Lemma tv_del k tab : Permutation (tv (zm_del k tab) ++ ovals (zm_get k tab)) (tv tab).
Proof.
  destruct (zm_get k tab) as [c|] eqn:E; cbn [ovals].
  - rewrite (tv_perm _ _ (zm_del_perm _ _ _ E)). cbn [tv flat_map snd]. apply Permutation_app_comm.
  - rewrite app_nil_r, zm_del_none by exact E. reflexivity.
Qed.
Lemma tv_set k c tab : zm_ok tab -> Permutation (tv (zm_set k c tab) ++ ovals (zm_get k tab)) (cvals c ++ tv tab).
Proof.
  intros H. rewrite (tv_perm _ _ (zm_set_perm _ _ _ H)). cbn [tv flat_map snd]. rewrite <- app_assoc. apply Permutation_app_head, tv_del.
Qed.

Lemma W_nodup recs nx fr vs : W recs nx fr vs -> NoDup (rids vs).
Proof. intros H. eapply Permutation_NoDup; [symmetry; apply (w_refs _ _ _ _ H)|apply zm_keys_nodup, H]. Qed.

(** deleting the record of a value *)
Lemma W_delete recs nx fr r l b vs : W recs nx fr (Blb r l :: vs) -> zm_get r recs = Some b ->
  W (zm_del r recs) nx (fr ++ [r]) vs /\ forall w, In w vs -> bytes (zm_del r recs) w = bytes recs w.
Proof.
  intros H Hg. pose proof (W_nodup _ _ _ _ H) as Hnd. destruct H as [A B C D E]. cbn [rids flat_map app] in B, Hnd.
  inversion Hnd as [|? ? Hni Hnd']; subst.
  assert (P : Permutation (map fst recs) (r :: map fst (zm_del r recs))) by (apply (Permutation_map fst (zm_del_perm r b recs Hg))).
  assert (Hb : forall w, In w vs -> forall r' l', w = Blb r' l' -> r' <> r).
  { intros w Hw r' l' -> ->. apply Hni. unfold rids. apply in_flat_map. exists (Blb r l'). split; [exact Hw|now left]. }
  split.
  - constructor; auto using zm_ok_del.
    + apply (Permutation_cons_inv (a := r)). rewrite <- P. exact B.
    + rewrite app_assoc. rewrite <- C. rewrite P. cbn [app]. symmetry. apply Permutation_cons_append.
    + inversion E; subst. apply Forall_forall. intros w Hw. rewrite Forall_forall in H2. specialize (H2 w Hw).
      destruct w as [|r' l']; [exact I|]. cbn [vlen] in *. destruct H2 as (b' & G & ->). exists b'. split; [|reflexivity].
      rewrite zm_get_del by auto. destruct (Z.eqb_spec r' r); [|exact G]. exfalso. now apply (Hb _ Hw r' (u32 (zlen b')) eq_refl).
  - intros w Hw. destruct w as [|r' l']; [reflexivity|]. cbn [bytes]. rewrite zm_get_del by auto.
    destruct (Z.eqb_spec r' r); [|reflexivity]. exfalso. now apply (Hb _ Hw r' l' eq_refl).
Qed.

Lemma dpop_val_ok d v e : W (x_recs d) (x_next d) (x_freed d) (v :: e) ->
  exists recs fr, dpop_val d v = Some (Xs (x_tab d) recs (x_next d) fr, bytes (x_recs d) v) /\
    W recs (x_next d) fr e /\ forall w, In w e -> bytes recs w = bytes (x_recs d) w.
Proof.
  intros H. destruct v as [b|r l]; cbn [dpop_val bytes].
  - exists (x_recs d), (x_freed d). destruct d as [t rc nx fr]; cbn in *. split; [reflexivity|]. split; [|auto].
    destruct H as [A B C D E]. constructor; auto. now inversion E.
  - pose proof (w_len _ _ _ _ H) as Hl. inversion Hl as [|? ? Hv _]; subst. destruct Hv as (b & G & ->).
    unfold rec_delete. rewrite G. destruct (W_delete _ _ _ _ _ _ _ H G) as [H1 H2].
    exists (zm_del r (x_recs d)), (x_freed d ++ [r]). auto.
Qed.

Definition bitem (recs : list (Z * list Z)) (x : xname * xval) : xname * list Z := (fst x, bytes recs (snd x)).
Definition bcell (recs : list (Z * list Z)) (c : @cell xname xval) : @cell xname (list Z) :=
  match c with Single x => Single (bitem recs x) | Bucket l => Bucket (map (bitem recs) l) | Other => Other end.

Lemma dpop_vals_ok l : forall d e, W (x_recs d) (x_next d) (x_freed d) (map snd l ++ e) ->
  exists recs fr, dpop_vals d l = Some (Xs (x_tab d) recs (x_next d) fr, map (bitem (x_recs d)) l) /\
    W recs (x_next d) fr e /\ forall w, In w e -> bytes recs w = bytes (x_recs d) w.
Proof.
  induction l as [|[n v] l IH]; intros d e H; cbn [dpop_vals map snd app] in *.
  - exists (x_recs d), (x_freed d). destruct d; cbn in *. auto.
  - destruct (dpop_val_ok d v _ H) as (rc & fr & E & H1 & H2). rewrite E.
    destruct (IH (Xs (x_tab d) rc (x_next d) fr) e H1) as (rc' & fr' & E' & H1' & H2'). cbn [x_tab x_recs x_next x_freed] in *.
    rewrite E'. exists rc', fr'. split; [|split; [exact H1'|]].
    + do 2 f_equal. cbn [bitem fst snd]. f_equal. apply map_ext_in. intros x Hx. unfold bitem. f_equal. apply H2.
      apply in_or_app. left. now apply in_map.
    + intros w Hw. rewrite H2' by exact Hw. apply H2. apply in_or_app. now right.
Qed.

Lemma dpop_ok d c e : W (x_recs d) (x_next d) (x_freed d) (cvals c ++ e) ->
  exists recs fr, dpop d c = Some (Xs (x_tab d) recs (x_next d) fr, bcell (x_recs d) c) /\
    W recs (x_next d) fr e /\ forall w, In w e -> bytes recs w = bytes (x_recs d) w.
Proof.
  intros H. destruct c as [[n v]|l|]; cbn [dpop bcell].
  - destruct (dpop_val_ok d v e H) as (rc & fr & E & H1). rewrite E. exists rc, fr. auto.
  - destruct (dpop_vals_ok l d e H) as (rc & fr & E & H1). rewrite E. exists rc, fr. auto.
  - exists (x_recs d), (x_freed d). destruct d. auto.
Qed.

(** what a reader sees under a key *)
Definition view (d : xs) (k : Z) : option (@cell xname (list Z)) := option_map (bcell (x_recs d)) (zm_get k (x_tab d)).

Lemma bcell_inl recs c : bcell recs (inl_cell c) = c.
Proof.
  destruct c as [[n b]|l|]; cbn; try reflexivity. f_equal. rewrite map_map. rewrite <- (map_id l) at 2. apply map_ext. now intros [n b].
Qed.
Lemma rids_inl c : rids (cvals (inl_cell c)) = [].
Proof. destruct c as [[n b]|l|]; cbn; try reflexivity. unfold cvals, cell_items. rewrite map_map. induction l as [|x l IH]; [reflexivity|exact IH]. Qed.
Lemma vlen_inl recs c : Forall (vlen recs) (cvals (inl_cell c)).
Proof.
  destruct c as [[n b]|l|]; cbn; repeat constructor. unfold cvals, cell_items. rewrite map_map. apply Forall_map.
  apply Forall_forall. intros; exact I.
Qed.
Lemma bcell_ext recs recs' c : (forall w, In w (cvals c) -> bytes recs w = bytes recs' w) -> bcell recs c = bcell recs' c.
Proof.
  intros H. destruct c as [[n v]|l|]; cbn [bcell]; try reflexivity.
  - unfold bitem. cbn. now rewrite (H v) by (now left).
  - f_equal. apply map_ext_in. intros x Hx. unfold bitem. f_equal. apply H. unfold cvals. now apply in_map.
Qed.
Lemma in_tv k c tab w : zm_get k tab = Some c -> In w (cvals c) -> In w (tv tab).
Proof. intros H Hw. apply zm_get_in in H. apply in_flat_map. exists (k, c). auto. Qed.

Lemma t_insert_ok d k c : wf d -> exists d', t_insert d k c = Some (d', view d k) /\ wf d' /\
  (zm_get k (x_tab d') = Some (inl_cell c)) /\
  forall k', view d' k' = if k' =? k then Some c else view d k'.
Proof.
  intros [H1 H2]. unfold t_insert.
  set (tab' := zm_set k (inl_cell c) (x_tab d)).
  assert (O' : zm_ok tab') by (now apply zm_ok_set).
  assert (HW : W (x_recs d) (x_next d) (x_freed d) (ovals (zm_get k (x_tab d)) ++ tv tab')).
  { apply (W_perm _ _ _ (cvals (inl_cell c) ++ tv (x_tab d))).
    - rewrite <- tv_set by exact H1. apply Permutation_app_comm.
    - rewrite app_nil_r in H2. destruct H2 as [A B C D E]. constructor; auto.
      + rewrite rids_app, rids_inl. exact B.
      + apply Forall_app. split; [apply vlen_inl|exact E]. }
  assert (Hg : forall rc, (forall w, In w (tv tab') -> bytes rc w = bytes (x_recs d) w) ->
    forall k', option_map (bcell rc) (zm_get k' tab') = if k' =? k then Some c else view d k').
  { intros rc Hrc k'. unfold view. pose proof (zm_get_set k (inl_cell c) (x_tab d) k' H1) as G. fold tab' in G.
    destruct (Z.eqb_spec k' k).
    - rewrite G. cbn. now rewrite bcell_inl.
    - rewrite <- G. destruct (zm_get k' tab') as [c'|] eqn:E; [|reflexivity]. cbn [option_map]. f_equal. apply bcell_ext.
      intros w Hw. apply Hrc. eapply in_tv; eauto. }
  unfold view at 1. destruct (zm_get k (x_tab d)) as [o|] eqn:E; cbn [ovals option_map] in *.
  - destruct (dpop_ok (Xs tab' (x_recs d) (x_next d) (x_freed d)) o (tv tab') HW) as (rc & fr & Ed & Hw & Hb).
    cbn [x_tab x_recs x_next x_freed] in *. rewrite Ed. exists (Xs tab' rc (x_next d) fr). split; [reflexivity|]. split; [|split].
    + split; cbn; [exact O'|]. rewrite app_nil_r. exact Hw.
    + cbn. unfold tab'. rewrite zm_get_set by exact H1. now rewrite Z.eqb_refl.
    + intros k'. unfold view. cbn [x_tab x_recs]. rewrite Hg by exact Hb. reflexivity.
  - exists (Xs tab' (x_recs d) (x_next d) (x_freed d)). split; [reflexivity|]. split; [|split].
    + split; cbn; [exact O'|]. rewrite app_nil_r. exact HW.
    + cbn. unfold tab'. rewrite zm_get_set by exact H1. now rewrite Z.eqb_refl.
    + intros k'. unfold view at 1. cbn [x_tab x_recs]. now rewrite Hg.
Qed.

Lemma t_remove_ok d k : wf d -> exists d', t_remove d k = Some (d', view d k) /\ wf d' /\
  forall k', view d' k' = if k' =? k then None else view d k'.
Proof.
  intros [H1 H2]. unfold t_remove.
  set (tab' := zm_del k (x_tab d)).
  assert (O' : zm_ok tab') by (now apply zm_ok_del).
  assert (HW : W (x_recs d) (x_next d) (x_freed d) (ovals (zm_get k (x_tab d)) ++ tv tab')).
  { apply (W_perm _ _ _ (tv (x_tab d))).
    - rewrite <- (tv_del k (x_tab d)). apply Permutation_app_comm.
    - rewrite app_nil_r in H2. exact H2. }
  assert (Hg : forall rc, (forall w, In w (tv tab') -> bytes rc w = bytes (x_recs d) w) ->
    forall k', option_map (bcell rc) (zm_get k' tab') = if k' =? k then None else view d k').
  { intros rc Hrc k'. unfold view. pose proof (zm_get_del k (x_tab d) k' H1) as G. fold tab' in G.
    destruct (Z.eqb_spec k' k).
    - now rewrite G.
    - rewrite <- G. destruct (zm_get k' tab') as [c'|] eqn:E; [|reflexivity]. cbn [option_map]. f_equal. apply bcell_ext.
      intros w Hw. apply Hrc. eapply in_tv; eauto. }
  unfold view at 1. destruct (zm_get k (x_tab d)) as [o|] eqn:E; cbn [ovals option_map] in *.
  - destruct (dpop_ok (Xs tab' (x_recs d) (x_next d) (x_freed d)) o (tv tab') HW) as (rc & fr & Ed & Hw & Hb).
    cbn [x_tab x_recs x_next x_freed] in *. rewrite Ed. exists (Xs tab' rc (x_next d) fr). split; [reflexivity|]. split.
    + split; cbn; [exact O'|]. rewrite app_nil_r. exact Hw.
    + intros k'. unfold view at 1. cbn [x_tab x_recs]. rewrite Hg by exact Hb. reflexivity.
  - exists (Xs tab' (x_recs d) (x_next d) (x_freed d)). split; [reflexivity|]. split.
    + split; cbn; [exact O'|]. rewrite app_nil_r. exact HW.
    + intros k'. unfold view at 1. cbn [x_tab x_recs]. now rewrite Hg.
Qed.

(** * The hash table *)
Definition ans {A} (r : res A) : option A := match r with Ok a => Some a | _ => None end.
Lemma h_insert_ok d k x : wf d -> fst (ht_insert xsame (view d) k x) <> Panic ->
  exists d', h_insert d k x = Some (d', option_map snd (match ans (fst (ht_insert xsame (view d) k x)) with Some o => o | None => None end)) /\ wf d' /\
    forall k', view d' k' = snd (ht_insert xsame (view d) k x) k'.
Proof.
  intros H HP. unfold h_insert. destruct (t_insert_ok d k (Single x) H) as (d1 & E1 & H1 & G1 & V1). rewrite E1.
  assert (N1 : new_item d1 k = Some x). { unfold new_item. rewrite G1. cbn. now destruct x. }
  unfold ht_insert in *. cbn [ds_insert] in *. rewrite Z.eqb_refl in *.
  assert (V2 : forall c d2, (forall k', view d2 k' = if k' =? k then Some c else view d1 k') ->
    forall k', view d2 k' = snd (ds_insert (fun k' => if k' =? k then Some (Single x) else view d k') k c) k').
  { intros c d2 Hv k'. cbn. rewrite Hv, V1. now destruct (k' =? k). }
  destruct (view d k) as [[old|old|]|] eqn:Ev.
  - unfold is_item in *. destruct (xsame (fst old) (fst x)) eqn:Es.
    + exists d1. split; [reflexivity|]. split; [exact H1|]. exact V1.
    + rewrite N1. destruct (t_insert_ok d1 k (Bucket [old; x]) H1) as (d2 & E2 & H2 & _ & V). rewrite E2. exists d2.
      split; [reflexivity|]. split; [exact H2|]. cbn [snd]. now apply V2.
  - rewrite N1. destruct (replace_first xsame (fst x) x old) as [[o old']|].
    + destruct (t_insert_ok d1 k (Bucket old') H1) as (d2 & E2 & H2 & _ & V). rewrite E2. exists d2.
      split; [reflexivity|]. split; [exact H2|]. cbn [snd]. now apply V2.
    + destruct (t_insert_ok d1 k (Bucket (old ++ [x])) H1) as (d2 & E2 & H2 & _ & V). rewrite E2. exists d2.
      split; [reflexivity|]. split; [exact H2|]. cbn [snd]. now apply V2.
  - exfalso. now apply HP.
  - exists d1. split; [reflexivity|]. split; [exact H1|]. exact V1.
Qed.

Lemma h_remove_ok d k n : wf d -> fst (ht_remove xsame (view d) k n) <> Panic ->
  exists d', h_remove d k n = Some (d', option_map snd (ans (fst (ht_remove xsame (view d) k n)))) /\ wf d' /\
    forall k', view d' k' = snd (ht_remove xsame (view d) k n) k'.
Proof.
  intros H HP. unfold h_remove. destruct (t_remove_ok d k H) as (d1 & E1 & H1 & V1). rewrite E1.
  unfold ht_remove in *. cbn [ds_remove] in *.
  assert (V2 : forall c d2, (forall k', view d2 k' = if k' =? k then Some c else view d1 k') ->
    forall k', view d2 k' = snd (ds_insert (fun k' => if k' =? k then None else view d k') k c) k').
  { intros c d2 Hv k'. cbn. rewrite Hv, V1. now destruct (k' =? k). }
  destruct (view d k) as [[old|old|]|] eqn:Ev.
  - unfold is_item in *. destruct (xsame (fst old) n) eqn:Es.
    + exists d1. split; [reflexivity|]. split; [exact H1|]. exact V1.
    + destruct (t_insert_ok d1 k (Single old) H1) as (d2 & E2 & H2 & _ & V). rewrite E2. exists d2.
      split; [reflexivity|]. split; [exact H2|]. cbn [snd]. now apply V2.
  - destruct (swap_remove xsame n old) as [[o old']|].
    + cbv zeta. destruct (t_insert_ok d1 k (match old' with [x] => Single x | _ => Bucket old' end) H1) as (d2 & E2 & H2 & _ & V).
      rewrite E2. exists d2. destruct old' as [|y [|z old']]; (split; [reflexivity|]); (split; [exact H2|]); cbn [snd]; now apply V2.
    + destruct (t_insert_ok d1 k (Bucket old) H1) as (d2 & E2 & H2 & _ & V). rewrite E2. exists d2.
      split; [reflexivity|]. split; [exact H2|]. cbn [snd]. now apply V2.
  - exfalso. now apply HP.
  - exists d1. split; [reflexivity|]. split; [exact H1|]. exact V1.
Qed.

(** the table's answer and new cell depend only on the cell under the key *)
Lemma ht_insert_local {V} (A B : @dataset xname V) k x : A k = B k ->
  fst (ht_insert xsame A k x) = fst (ht_insert xsame B k x) /\
  snd (ht_insert xsame A k x) k = snd (ht_insert xsame B k x) k /\
  forall k', k' <> k -> snd (ht_insert xsame A k x) k' = A k'.
Proof.
  intros E. unfold ht_insert. cbn [ds_insert]. rewrite Z.eqb_refl, E.
  assert (Q : forall c k', k' <> k -> snd (ds_insert (fun k' => if k' =? k then Some (Single x) else A k') k c) k' = A k').
  { intros c k' Hk. cbn. destruct (Z.eqb_spec k' k); [contradiction|reflexivity]. }
  assert (Q0 : forall k', k' <> k -> (if k' =? k then Some (Single x) else A k') = A k').
  { intros k' Hk. destruct (Z.eqb_spec k' k); [contradiction|reflexivity]. }
  destruct (B k) as [[old|old|]|].
  - destruct (is_item xsame (fst x) old); cbn [fst snd].
    + rewrite Z.eqb_refl. auto.
    + cbn [ds_insert snd] in *. rewrite Z.eqb_refl. auto.
  - destruct (replace_first xsame (fst x) x old) as [[o l]|]; cbn [fst snd ds_insert] in *; rewrite Z.eqb_refl; auto.
  - cbn [fst snd]. rewrite Z.eqb_refl. auto.
  - cbn [fst snd]. rewrite Z.eqb_refl. auto.
Qed.
Lemma ht_remove_local {V} (A B : @dataset xname V) k n : A k = B k ->
  fst (ht_remove xsame A k n) = fst (ht_remove xsame B k n) /\
  snd (ht_remove xsame A k n) k = snd (ht_remove xsame B k n) k /\
  forall k', k' <> k -> snd (ht_remove xsame A k n) k' = A k'.
Proof.
  intros E. unfold ht_remove. cbn [ds_remove]. rewrite E.
  assert (Q : forall c k', k' <> k -> snd (ds_insert (fun k' => if k' =? k then None else A k') k c) k' = A k').
  { intros c k' Hk. cbn. destruct (Z.eqb_spec k' k); [contradiction|reflexivity]. }
  assert (Q0 : forall k', k' <> k -> (if k' =? k then None else A k') = A k').
  { intros k' Hk. destruct (Z.eqb_spec k' k); [contradiction|reflexivity]. }
  destruct (B k) as [[old|old|]|].
  - destruct (is_item xsame n old); cbn [fst snd].
    + rewrite Z.eqb_refl. auto.
    + cbn [ds_insert snd] in *. rewrite Z.eqb_refl. auto.
  - destruct (swap_remove xsame n old) as [[o [|y [|z l]]]|]; cbn [fst snd ds_insert] in *; rewrite Z.eqb_refl; auto.
  - cbn [fst snd]. rewrite Z.eqb_refl. auto.
  - cbn [fst snd]. rewrite Z.eqb_refl. auto.
Qed.

Lemma inv_ext {N V} hash (A B : @dataset N V) m m' : (forall k, A k = B k) -> (forall n, m n = m' n) ->
  inv hash A m -> inv hash B m'.
Proof.
  intros E Em H k. specialize (H k). unfold items in *. rewrite <- E. destruct H as (H1 & H2 & H3). split; [exact H1|]. split; [exact H2|].
  intros n v. rewrite H3, Em. reflexivity.
Qed.

(** * Deleting a range *)
Lemma rec_drop_ok d r l e : W (x_recs d) (x_next d) (x_freed d) (Blb r l :: e) ->
  exists recs fr, match rec_delete d r with Some (d1, _) => Some d1 | None => None end = Some (Xs (x_tab d) recs (x_next d) fr) /\
    W recs (x_next d) fr e /\ forall w, In w e -> bytes recs w = bytes (x_recs d) w.
Proof.
  intros H. destruct (dpop_val_ok d (Blb r l) e H) as (rc & fr & E & H1). cbn [dpop_val] in E. rewrite E. exists rc, fr. auto.
Qed.
Lemma ddrop_ok d c e : W (x_recs d) (x_next d) (x_freed d) (cvals c ++ e) ->
  exists recs fr, ddrop d c = Some (Xs (x_tab d) recs (x_next d) fr) /\
    W recs (x_next d) fr e /\ forall w, In w e -> bytes recs w = bytes (x_recs d) w.
Proof.
  intros H.
  assert (Skip : forall b e d, W (x_recs d) (x_next d) (x_freed d) (Inl b :: e) -> W (x_recs d) (x_next d) (x_freed d) e).
  { intros b e' d' [A B C D E]. constructor; auto. now inversion E. }
  destruct c as [[n [b|r l]]|l|]; cbn [ddrop].
  - exists (x_recs d), (x_freed d). apply Skip in H. destruct d. auto.
  - exact (rec_drop_ok d r l e H).
  - revert d H. unfold cvals, cell_items. induction l as [|[n v] l IH]; intros d H; cbn [map snd app fold_left] in *.
    + exists (x_recs d), (x_freed d). destruct d. auto.
    + destruct v as [b|r z].
      * apply Skip in H. exact (IH d H).
      * destruct (rec_drop_ok d r z _ H) as (rc & fr & E & H1 & H2). rewrite E.
        destruct (IH (Xs (x_tab d) rc (x_next d) fr) H1) as (rc' & fr' & E' & H1' & H2'). cbn [x_tab x_recs x_next] in *.
        exists rc', fr'. split; [exact E'|]. split; [exact H1'|]. intros w Hw. rewrite H2' by exact Hw. apply H2. apply in_or_app. now right.
  - exists (x_recs d), (x_freed d). destruct d. auto.
Qed.
Lemma ddrops_ok L : forall d e, W (x_recs d) (x_next d) (x_freed d) (tv L ++ e) ->
  exists recs fr, fold_left (fun od (p : Z * cell) => match od with Some d => ddrop d (snd p) | None => None end) L (Some d)
      = Some (Xs (x_tab d) recs (x_next d) fr) /\
    W recs (x_next d) fr e /\ forall w, In w e -> bytes recs w = bytes (x_recs d) w.
Proof.
  induction L as [|[k c] L IH]; intros d e H; cbn [fold_left tv flat_map snd] in *.
  - exists (x_recs d), (x_freed d). destruct d. auto.
  - rewrite <- app_assoc in H. destruct (ddrop_ok d c _ H) as (rc & fr & E & H1 & H2). rewrite E.
    destruct (IH (Xs (x_tab d) rc (x_next d) fr) e H1) as (rc' & fr' & E' & H1' & H2'). cbn [x_tab x_recs x_next] in *.
    exists rc', fr'. split; [exact E'|]. split; [exact H1'|]. intros w Hw. rewrite H2' by exact Hw. apply H2. apply in_or_app. now right.
Qed.
Lemma filter_tv (p : Z * @cell xname xval -> bool) tab :
  Permutation (tv tab) (tv (filter p tab) ++ tv (filter (fun x => negb (p x)) tab)).
Proof.
  induction tab as [|x tab IH]; [reflexivity|]. cbn [filter]. change (tv (x :: tab)) with (cvals (snd x) ++ tv tab).
  destruct (p x); cbn [negb].
  - change (tv (x :: filter p tab)) with (cvals (snd x) ++ tv (filter p tab)). rewrite <- app_assoc. now apply Permutation_app_head.
  - change (tv (x :: filter (fun x => negb (p x)) tab)) with (cvals (snd x) ++ tv (filter (fun x => negb (p x)) tab)).
    rewrite IH. rewrite !app_assoc. apply Permutation_app_tail, Permutation_app_comm.
Qed.
Lemma range_delete_ok d r : wf d -> exists d', t_range_delete d r = Some d' /\ wf d' /\
  forall k, view d' k = if in_rangeb r k then None else view d k.
Proof.
  intros [H1 H2]. rewrite app_nil_r in H2. unfold t_range_delete, t_range.
  set (p := fun q : Z * @cell xname xval => in_rangeb r (fst q)).
  set (tab' := filter (fun q => negb (p q)) (x_tab d)).
  assert (HW := W_perm _ _ _ _ _ (filter_tv p (x_tab d)) H2). fold tab' in HW.
  destruct (ddrops_ok (filter p (x_tab d)) (Xs tab' (x_recs d) (x_next d) (x_freed d)) (tv tab') HW) as (rc & fr & E & Hw & Hb).
  cbn [x_tab x_recs x_next x_freed] in *. eexists. split; [exact E|]. split.
  - split; cbn; [now apply zm_ok_filter|]. rewrite app_nil_r. exact Hw.
  - intros k. unfold view. cbn [x_tab x_recs].
    assert (G : zm_get k tab' = if in_rangeb r k then None else zm_get k (x_tab d)).
    { unfold tab', p. rewrite (zm_get_filter_key (fun k => negb (in_rangeb r k))). now destruct (in_rangeb r k). }
    rewrite G. destruct (in_rangeb r k); [reflexivity|]. destruct (zm_get k (x_tab d)) as [c|] eqn:Ec; [|reflexivity].
    cbn. f_equal. apply bcell_ext. intros w Hw'. apply Hb. eapply in_tv; [rewrite G; reflexivity|exact Hw'].
Qed.

(** * Flushing *)
Lemma W_put recs nx fr b a c : W recs nx fr (a ++ Inl b :: c) ->
  W (zm_set nx b recs) (nx + 1) fr (a ++ Blb nx (u32 (zlen b)) :: c) /\
  zm_get nx (zm_set nx b recs) = Some b /\
  forall w, In w (a ++ c) -> bytes (zm_set nx b recs) w = bytes recs w.
Proof.
  intros [A B C D E].
  assert (Hlt : forall r, In r (map fst recs) -> r < nx).
  { intros r Hr. assert (Hin : In r (zrange 0 nx)) by (eapply Permutation_in; [exact C|apply in_or_app; now left]).
    apply in_zrange in Hin. lia. }
  assert (Hno : zm_get nx recs = None).
  { destruct (zm_get nx recs) eqn:G; [|reflexivity]. apply zm_get_in in G. apply (in_map fst) in G. apply Hlt in G. cbn in G. lia. }
  assert (P : Permutation (zm_set nx b recs) ((nx, b) :: recs)).
  { rewrite zm_set_perm by exact A. now rewrite zm_del_none. }
  assert (Hg : forall r, r <> nx -> zm_get r (zm_set nx b recs) = zm_get r recs).
  { intros r Hr. rewrite zm_get_set by exact A. destruct (Z.eqb_spec r nx); [contradiction|reflexivity]. }
  assert (Hr : forall w, In w (a ++ Inl b :: c) -> forall r l, w = Blb r l -> r <> nx).
  { intros w Hw r l -> ->. assert (Hin : In nx (map fst recs)); [|apply Hlt in Hin; lia].
    eapply Permutation_in; [exact B|]. apply in_flat_map. exists (Blb nx l). split; [exact Hw|now left]. }
  assert (Hsub : forall w, In w (a ++ c) -> In w (a ++ Inl b :: c)).
  { intros w Hw. apply in_app_iff in Hw. apply in_app_iff. cbn [In]. tauto. }
  split; [|split].
  - constructor.
    + now apply zm_ok_set.
    + rewrite (Permutation_map fst P). cbn [map fst]. rewrite <- B. rewrite !rids_app. cbn [rids flat_map app]. symmetry. apply Permutation_middle.
    + rewrite (Permutation_map fst P). cbn [map fst app]. rewrite C.
      rewrite (zrange_snoc 0 (nx + 1)) by lia. replace (nx + 1 - 1) with nx by lia. apply Permutation_cons_append.
    + lia.
    + apply Forall_forall. intros w Hw. rewrite Forall_forall in E. apply in_app_iff in Hw. cbn [In] in Hw.
      assert (Hw' : w = Blb nx (u32 (zlen b)) \/ In w (a ++ c)) by (rewrite in_app_iff; intuition auto).
      destruct Hw' as [->|Hw'].
      * cbn. exists b. split; [|reflexivity]. rewrite zm_get_set by exact A. now rewrite Z.eqb_refl.
      * specialize (E w (Hsub w Hw')). destruct w as [|r l]; [exact I|]. cbn in *. destruct E as (b' & G & ->). exists b'.
        split; [|reflexivity]. rewrite Hg; [exact G|]. exact (Hr _ (Hsub _ Hw') _ _ eq_refl).
  - rewrite zm_get_set by exact A. now rewrite Z.eqb_refl.
  - intros w Hw. destruct w as [|r l]; [reflexivity|]. cbn. rewrite Hg; [reflexivity|]. exact (Hr _ (Hsub _ Hw) _ _ eq_refl).
Qed.

Lemma flush_val_ok st v fr a c : W (fst st) (snd st) fr (a ++ v :: c) ->
  let '(st1, v1) := flush_val st v in W (fst st1) (snd st1) fr (a ++ v1 :: c) /\ bytes (fst st1) v1 = bytes (fst st) v /\
  forall w, In w (a ++ c) -> bytes (fst st1) w = bytes (fst st) w.
Proof.
  intros H. destruct v as [b|r l]; cbn [flush_val].
  - destruct (BLOB_THRESHOLD <? zlen b); [|auto]. destruct (W_put _ _ _ _ _ _ H) as (H1 & H2 & H3). cbn [fst snd]. split; [exact H1|]. split; [|exact H3].
    cbn. now rewrite H2.
  - auto.
Qed.
Lemma flush_items_ok l : forall st fr a c, W (fst st) (snd st) fr (a ++ map snd l ++ c) ->
  let '(st1, l1) := flush_items st l in W (fst st1) (snd st1) fr (a ++ map snd l1 ++ c) /\ map (bitem (fst st1)) l1 = map (bitem (fst st)) l /\
  forall w, In w (a ++ c) -> bytes (fst st1) w = bytes (fst st) w.
Proof.
  induction l as [|[n v] l IH]; intros st fr a c H; cbn [flush_items map snd app] in *; [auto|].
  pose proof (flush_val_ok st v fr a (map snd l ++ c) H) as Hv. destruct (flush_val st v) as [st1 v1]. destruct Hv as (H1 & H2 & H3).
  specialize (IH st1 fr (a ++ [v1]) c). rewrite <- app_assoc in IH. specialize (IH H1). destruct (flush_items st1 l) as [st2 l2].
  destruct IH as (H4 & H5 & H6). rewrite <- app_assoc in H4. cbn [map snd app]. split; [exact H4|]. split.
  - unfold bitem at 1 3. cbn [fst snd]. rewrite H6 by (apply in_or_app; left; apply in_or_app; right; now left). rewrite H2. f_equal.
    rewrite H5. apply map_ext_in. intros x Hx. unfold bitem. f_equal. apply H3. apply in_or_app. right. apply in_or_app. left. now apply in_map.
  - intros w Hw. rewrite H6, H3; [reflexivity| |]; apply in_app_iff in Hw; rewrite !in_app_iff; tauto.
Qed.

Definition bpair (recs : list (Z * list Z)) (p : Z * @cell xname xval) := (fst p, bcell recs (snd p)).
Lemma flush_tab_ok tab : forall st fr a, W (fst st) (snd st) fr (a ++ tv tab) ->
  let '(st1, tab1) := flush_tab st tab in W (fst st1) (snd st1) fr (a ++ tv tab1) /\ map (bpair (fst st1)) tab1 = map (bpair (fst st)) tab /\
  forall w, In w a -> bytes (fst st1) w = bytes (fst st) w.
Proof.
  induction tab as [|[k c] tab IH]; intros st fr a H; cbn [flush_tab map] in *; [auto|].
  change (tv ((k, c) :: tab)) with (cvals c ++ tv tab) in H.
  set (q := match c with
            | Single (n, v) => let '(st1, v1) := flush_val st v in (st1, Single (n, v1))
            | Bucket b => let '(st1, b1) := flush_items st b in (st1, Bucket b1)
            | Other => (st, Other)
            end).
  assert (Hc : let '(st1, c1) := q in W (fst st1) (snd st1) fr (a ++ cvals c1 ++ tv tab) /\ bcell (fst st1) c1 = bcell (fst st) c /\
    forall w, In w (a ++ tv tab) -> bytes (fst st1) w = bytes (fst st) w).
  { subst q. destruct c as [[n v]|l|].
    - cbn [cvals cell_items map snd app] in H. pose proof (flush_val_ok st v fr a (tv tab) H) as Hv. destruct (flush_val st v) as [st1 v1].
      destruct Hv as (H1 & H2 & H3). split; [exact H1|]. split; [|exact H3]. cbn. unfold bitem. cbn. now rewrite H2.
    - pose proof (flush_items_ok l st fr a (tv tab) H) as Hv. destruct (flush_items st l) as [st1 l1].
      destruct Hv as (H1 & H2 & H3). split; [exact H1|]. split; [|exact H3]. cbn. now rewrite H2.
    - auto. }
  destruct q as [st1 c1]. destruct Hc as (H1 & H2 & H3).
  specialize (IH st1 fr (a ++ cvals c1)). rewrite <- app_assoc in IH. specialize (IH H1). destruct (flush_tab st1 tab) as [st2 tab2].
  destruct IH as (H4 & H5 & H6). rewrite <- app_assoc in H4. change (tv ((k, c1) :: tab2)) with (cvals c1 ++ tv tab2). split; [exact H4|]. split.
  - cbn [map]. f_equal.
    + unfold bpair. cbn [fst snd]. f_equal. rewrite <- H2. apply bcell_ext. intros w Hw. apply H6. apply in_or_app. now right.
    + rewrite H5. apply map_ext_in. intros [j x] Hx. unfold bpair. cbn [fst snd]. f_equal. apply bcell_ext. intros w Hw. apply H3.
      apply in_or_app. right. apply in_flat_map. exists (j, x). auto.
  - intros w Hw. rewrite H6, H3; [reflexivity| |]; rewrite !in_app_iff; tauto.
Qed.

Lemma view_map d k : view d k = zm_get k (map (bpair (x_recs d)) (x_tab d)).
Proof.
  unfold view. induction (x_tab d) as [|[j c] t IH]; [reflexivity|]. cbn [zm_get map bpair fst snd]. destruct (k =? j); [reflexivity|exact IH].
Qed.
Lemma map_bpair_fst recs tab : map fst (map (bpair recs) tab) = map fst tab.
Proof. rewrite map_map. reflexivity. Qed.
Lemma flush_ok d : wf d -> wf (flush d) /\ (forall k, view (flush d) k = view d k).
Proof.
  intros [H1 H2]. rewrite app_nil_r in H2. unfold flush.
  pose proof (flush_tab_ok (x_tab d) (x_recs d, x_next d) (x_freed d) [] H2) as H. destruct (flush_tab (x_recs d, x_next d) (x_tab d)) as [[rc nx] tab].
  cbn [fst snd app] in H. destruct H as (H3 & H4 & _). split.
  - split; cbn; [|rewrite app_nil_r; exact H3]. unfold zm_ok. rewrite <- (map_bpair_fst rc), H4, map_bpair_fst. exact H1.
  - intros k. rewrite !view_map. cbn. now rewrite H4.
Qed.
