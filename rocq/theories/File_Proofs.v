(** Lemmas on [File_Model]: the blob layer, and file contents as functions. *)
From Verif Require Import Common ZMap File_Model.
From Coq Require Import Permutation Sorting.Sorted.

(** * Maps *)
Lemma map_zm_set {A B} (f : A -> B) k v m :
  map (fun p => (fst p, f (snd p))) (zm_set k v m) = zm_set k (f v) (map (fun p => (fst p, f (snd p))) m).
Proof.
  induction m as [|[j w] m IH]; [reflexivity|]. cbn [zm_set map fst snd].
  destruct (k <? j); [reflexivity|]. destruct (k =? j); [reflexivity|]. cbn [map fst snd]. now rewrite IH.
Qed.
Lemma map_zm_del {A B} (f : A -> B) k m :
  map (fun p => (fst p, f (snd p))) (zm_del k m) = zm_del k (map (fun p => (fst p, f (snd p))) m).
Proof.
  induction m as [|[j w] m IH]; [reflexivity|]. cbn [zm_del map fst snd].
  destruct (k =? j); [reflexivity|]. cbn [map fst snd]. now rewrite IH.
Qed.
Lemma map_zm_get {A B} (f : A -> B) k m :
  zm_get k (map (fun p => (fst p, f (snd p))) m) = match zm_get k m with Some v => Some (f v) | None => None end.
Proof. induction m as [|[j w] m IH]; [reflexivity|]. cbn [zm_get map fst snd]. destruct (k =? j); auto. Qed.
Lemma zm_ok_map {A B} (f : A -> B) m : zm_ok m -> zm_ok (map (fun p => (fst p, f (snd p))) m).
Proof. unfold zm_ok. rewrite map_map. cbn. auto. Qed.
Lemma zm_ok_nodup {A} (m : list (Z * A)) : zm_ok m -> NoDup (map fst m).
Proof.
  unfold zm_ok. induction 1 as [|k l S IH F]; constructor; auto. intros I. rewrite Forall_forall in F. apply F in I. lia.
Qed.
Lemma keys_del {A} k (m : list (Z * A)) v : zm_ok m -> zm_get k m = Some v -> Permutation (map fst m) (k :: map fst (zm_del k m)).
Proof.
  induction m as [|[j w] m IH]; [discriminate|]. intros Ok G. apply zm_ok_cons in Ok. cbn [zm_get zm_del] in *.
  destruct (Z.eqb_spec k j) as [->|N]; [reflexivity|]. cbn [map fst]. rewrite (IH (proj1 Ok) G) at 1. apply perm_swap.
Qed.
Lemma keys_set {A} k (m : list (Z * A)) v : zm_ok m -> zm_get k m = None -> Permutation (map fst (zm_set k v m)) (k :: map fst m).
Proof.
  induction m as [|[j w] m IH]; [reflexivity|]. intros Ok G. apply zm_ok_cons in Ok. cbn [zm_get zm_set] in *.
  destruct (Z.eqb_spec k j) as [->|N]; [discriminate|]. destruct (k <? j); [reflexivity|]. cbn [map fst]. rewrite (IH (proj1 Ok) G). apply perm_swap.
Qed.

(** * Blobs *)
Definition rid_of (e : extent) : list Z := match e with Blob r _ => [r] | Inline _ => [] end.
Definition rids (m : list (Z * extent)) : list Z := flat_map (fun p => rid_of (snd p)) m.
Definition res (bl : list (Z * list Z)) (e : extent) : list Z :=
  match e with Inline b => b | Blob r _ => match zm_get r bl with Some b => b | None => [] end end.
(** the extents with their bytes *)
Definition R (d : ds) : list (Z * list Z) := map (fun p => (fst p, res (d_blobs d) (snd p))) (d_ext d).
Definition stored (bl : list (Z * list Z)) (e : extent) : Prop :=
  match e with Inline _ => True | Blob r l => exists b, zm_get r bl = Some b /\ l = zlen b end.
(** [xs] are extents already taken out of the tree whose blobs are still to be dropped *)
Definition dsokx (d : ds) (xs : list extent) : Prop :=
  zm_ok (d_ext d) /\ zm_ok (d_blobs d) /\ Permutation (rids (d_ext d) ++ flat_map rid_of xs) (map fst (d_blobs d)) /\
  Forall (fun p => stored (d_blobs d) (snd p)) (d_ext d) /\ Forall (stored (d_blobs d)) xs /\
  0 <= d_next d /\ Permutation (d_freed d ++ map fst (d_blobs d)) (zrange 0 (d_next d)).
Notation dsok d := (dsokx d []).

Lemma stored_del bl r e : zm_ok bl -> stored bl e -> ~ In r (rid_of e) -> stored (zm_del r bl) e /\ res (zm_del r bl) e = res bl e.
Proof.
  intros Ok S N. destruct e as [b|r' l]; [split; [exact I|reflexivity]|]. destruct S as (b & G & ->). cbn in N.
  assert (r' <> r) by tauto. assert (E : zm_get r' (zm_del r bl) = Some b).
  { rewrite zm_get_del by exact Ok. destruct (Z.eqb_spec r' r); [congruence|exact G]. }
  split; [exists b; auto|]. cbn. now rewrite E, G.
Qed.
Lemma in_rids k e m : In (k, e) m -> forall r, In r (rid_of e) -> In r (rids m).
Proof. intros I r Ir. apply in_flat_map. exists (k, e). auto. Qed.

Lemma drop_ok d e xs r l : dsokx d (e :: xs) -> e = Blob r l -> exists b, zm_get r (d_blobs d) = Some b /\ l = zlen b /\
  let d' := Ds (d_ext d) (zm_del r (d_blobs d)) (d_next d) (d_freed d ++ [r]) in dsokx d' xs /\ R d' = R d /\
  Forall (fun e' => res (d_blobs d') e' = res (d_blobs d) e') xs.
Proof.
  intros (O1 & O2 & P & F1 & F2 & N0 & A) ->. inversion F2 as [|? ? Sr F3]; subst. destruct Sr as (b & G & ->). exists b. split; [exact G|]. split; [reflexivity|].
  pose proof (zm_ok_nodup _ O2) as Nd. rewrite <- P in Nd. cbn [flat_map rid_of app] in Nd, P.
  assert (Nin : ~ In r (rids (d_ext d) ++ flat_map rid_of xs)).
  { apply NoDup_remove_2 in Nd. exact Nd. }
  assert (N1 : forall p, In p (d_ext d) -> ~ In r (rid_of (snd p))).
  { intros [k e] I Ir. apply Nin, in_or_app. left. eapply in_rids; eauto. }
  assert (N2 : forall e, In e xs -> ~ In r (rid_of e)).
  { intros e I Ir. apply Nin, in_or_app. right. apply in_flat_map. eauto. }
  rewrite Forall_forall in F1, F3.
  split; [|split].
  - split; [exact O1|]. split; [apply zm_ok_del; exact O2|]. cbn [d_ext d_blobs d_next d_freed].
    assert (K := keys_del r _ b O2 G). split.
    { rewrite K in P. apply (Permutation_cons_inv (a := r)). rewrite <- P. rewrite Permutation_middle. reflexivity. }
    split; [apply Forall_forall; intros p I; apply stored_del; auto|].
    split; [apply Forall_forall; intros p I; apply stored_del; auto|].
    split; [exact N0|]. rewrite <- A. rewrite <- app_assoc. cbn [app]. now rewrite K.
  - unfold R. cbn [d_ext d_blobs]. apply map_ext_in. intros p I. f_equal. apply stored_del; auto.
  - apply Forall_forall. intros e I. apply stored_del; auto.
Qed.

Lemma dpop_ok d e xs : dsokx d (e :: xs) -> exists d', dpop d e = Some (d', res (d_blobs d) e) /\ dsokx d' xs /\ R d' = R d.
Proof.
  intros O. destruct e as [b|r l].
  - exists d. split; [reflexivity|]. split; [|reflexivity]. destruct O as (A&B&C&D&E&F&G). inversion E; subst. repeat (split; [assumption|]). assumption.
  - destruct (drop_ok _ _ _ _ _ O eq_refl) as (b & G & -> & O' & E & _). cbn [dpop res]. rewrite G. eexists. split; [reflexivity|]. auto.
Qed.
Lemma ddrop_ok d e xs : dsokx d (e :: xs) -> exists d', ddrop d e = Some d' /\ dsokx d' xs /\ R d' = R d.
Proof.
  intros O. destruct e as [b|r l].
  - exists d. split; [reflexivity|]. split; [|reflexivity]. destruct O as (A&B&C&D&E&F&G). inversion E; subst. repeat (split; [assumption|]). assumption.
  - destruct (drop_ok _ _ _ _ _ O eq_refl) as (b & G & -> & O' & E & _). cbn [ddrop]. rewrite G. eexists. split; [reflexivity|]. auto.
Qed.

Definition olist {A} (o : option A) : list A := match o with Some x => [x] | None => [] end.
Lemma rids_set k b m : zm_ok m -> Permutation (rids (zm_set k (Inline b) m) ++ flat_map rid_of (olist (zm_get k m))) (rids m).
Proof.
  induction m as [|[j e] m IH]; [reflexivity|]. intros Ok. apply zm_ok_cons in Ok. destruct Ok as [Ok F]. cbn [zm_set zm_get].
  destruct (Z.ltb_spec k j), (Z.eqb_spec k j); subst; try lia.
  - rewrite zm_get_lt. { cbn. now rewrite app_nil_r. } eapply Forall_impl; [|exact F]. cbn. lia.
  - cbn [rids flat_map olist rid_of snd]. rewrite app_nil_r. cbn [app]. apply Permutation_app_comm.
  - cbn [rids flat_map snd]. rewrite <- app_assoc. apply Permutation_app_head. apply IH. exact Ok.
Qed.
Lemma rids_del k m : zm_ok m -> Permutation (rids (zm_del k m) ++ flat_map rid_of (olist (zm_get k m))) (rids m).
Proof.
  induction m as [|[j e] m IH]; [reflexivity|]. intros Ok. apply zm_ok_cons in Ok. destruct Ok as [Ok F]. cbn [zm_del zm_get].
  destruct (Z.eqb_spec k j); subst.
  - cbn [rids flat_map olist rid_of snd]. rewrite app_nil_r. apply Permutation_app_comm.
  - cbn [rids flat_map snd]. rewrite <- app_assoc. apply Permutation_app_head. apply IH. exact Ok.
Qed.
Lemma olist_stored bl k m : Forall (fun p => stored bl (snd p)) m -> Forall (stored bl) (olist (zm_get k m)).
Proof.
  intros F. destruct (zm_get k m) as [e|] eqn:G; [|constructor]. apply zm_get_in in G. rewrite Forall_forall in F. constructor; [|constructor].
  exact (F _ G).
Qed.

Lemma ds_insert_ok d k b : dsok d -> exists d', ds_insert d k b = Some (d', zm_get k (R d)) /\ dsok d' /\ R d' = zm_set k b (R d).
Proof.
  intros (O1 & O2 & P & F1 & _ & N0 & A). cbn [flat_map] in P. rewrite app_nil_r in P.
  set (d1 := Ds (zm_set k (Inline b) (d_ext d)) (d_blobs d) (d_next d) (d_freed d)).
  assert (O : dsokx d1 (olist (zm_get k (d_ext d)))).
  { split; [apply zm_ok_set; exact O1|]. split; [exact O2|]. split; [cbn [d1 d_ext d_blobs]; rewrite rids_set by exact O1; exact P|].
    split. { apply Forall_forall. intros p I. apply zm_set_fst in I. destruct I as [->|I]; [exact Logic.I|]. rewrite Forall_forall in F1. exact (F1 _ I). }
    split; [apply olist_stored; exact F1|]. split; [exact N0|exact A]. }
  assert (E : R d1 = zm_set k b (R d)) by (unfold R; cbn [d1 d_ext d_blobs]; apply (map_zm_set (res (d_blobs d)))).
  unfold ds_insert. fold d1. unfold R at 1. rewrite (map_zm_get (res (d_blobs d))).
  destruct (zm_get k (d_ext d)) as [e|]; cbn [olist] in O.
  - destruct (dpop_ok _ _ _ O) as (d' & -> & O' & E'). exists d'. split; [reflexivity|]. split; [exact O'|]. now rewrite E'.
  - exists d1. auto.
Qed.
Lemma ds_remove_ok d k : dsok d -> exists d', ds_remove d k = Some (d', zm_get k (R d)) /\ dsok d' /\ R d' = zm_del k (R d).
Proof.
  intros (O1 & O2 & P & F1 & _ & N0 & A). cbn [flat_map] in P. rewrite app_nil_r in P.
  set (d1 := Ds (zm_del k (d_ext d)) (d_blobs d) (d_next d) (d_freed d)).
  assert (O : dsokx d1 (olist (zm_get k (d_ext d)))).
  { split; [apply zm_ok_del; exact O1|]. split; [exact O2|]. split; [cbn [d1 d_ext d_blobs]; rewrite rids_del by exact O1; exact P|].
    split. { apply Forall_forall. intros p I. apply zm_del_in in I. rewrite Forall_forall in F1. exact (F1 _ I). }
    split; [apply olist_stored; exact F1|]. split; [exact N0|exact A]. }
  assert (E : R d1 = zm_del k (R d)) by (unfold R; cbn [d1 d_ext d_blobs]; apply (map_zm_del (res (d_blobs d)))).
  unfold ds_remove. fold d1. unfold R at 1. rewrite (map_zm_get (res (d_blobs d))).
  destruct (zm_get k (d_ext d)) as [e|]; cbn [olist] in O.
  - destruct (dpop_ok _ _ _ O) as (d' & -> & O' & E'). exists d'. split; [reflexivity|]. split; [exact O'|]. now rewrite E'.
  - exists d1. auto.
Qed.

Lemma ddrops_ok : forall es d, dsokx d (map snd es) -> exists d', ddrops d es = Some d' /\ dsok d' /\ R d' = R d.
Proof.
  induction es as [|[k e] es IH]; intros d O; [exists d; auto|]. cbn [map snd] in O. destruct (ddrop_ok _ _ _ O) as (d1 & E & O1 & E1).
  cbn [ddrops]. rewrite E. destruct (IH _ O1) as (d2 & -> & O2 & E2). exists d2. split; [reflexivity|]. split; [exact O2|congruence].
Qed.
Lemma rids_filter (p : Z * extent -> bool) m :
  Permutation (rids (filter (fun x => negb (p x)) m) ++ flat_map rid_of (map snd (filter p m))) (rids m).
Proof.
  induction m as [|x m IH]; [reflexivity|]. cbn [filter]. destruct (p x); cbn [negb map flat_map rids].
  - fold (rids m). rewrite Permutation_app_swap_app. apply Permutation_app_head. exact IH.
  - fold (rids m). rewrite <- app_assoc. apply Permutation_app_head. exact IH.
Qed.
Lemma filter_map_fst (q : Z -> bool) {A B} (f : A -> B) (m : list (Z * A)) :
  filter (fun p => q (fst p)) (map (fun p => (fst p, f (snd p))) m) = map (fun p => (fst p, f (snd p))) (filter (fun p => q (fst p)) m).
Proof. induction m as [|[k e] m IH]; [reflexivity|]. cbn [map filter fst snd]. destruct (q k); cbn [map fst snd]; now rewrite IH. Qed.

Definition cut (lo : Z) (hi : option Z) (m : list (Z * list Z)) := filter (fun p => negb (in_erange lo hi (fst p))) m.
Definition within (lo : Z) (hi : option Z) (m : list (Z * list Z)) := filter (fun p => in_erange lo hi (fst p)) m.
Lemma ds_range_delete_ok d lo hi : dsok d -> exists d', ds_range_delete d lo hi = Some d' /\ dsok d' /\ R d' = cut lo hi (R d).
Proof.
  intros (O1 & O2 & P & F1 & _ & N0 & A). cbn [flat_map] in P. rewrite app_nil_r in P. unfold ds_range_delete.
  destruct (ddrops_ok (ds_range d lo hi)
    (Ds (filter (fun p => negb (in_erange lo hi (fst p))) (d_ext d)) (d_blobs d) (d_next d) (d_freed d))) as (d' & E & O' & ER).
  - unfold ds_range. split; [apply zm_ok_filter; exact O1|]. split; [exact O2|]. cbn [d_ext d_blobs d_freed d_next].
    split; [rewrite (rids_filter (fun p => in_erange lo hi (fst p))); exact P|]. rewrite Forall_forall in F1.
    split; [apply Forall_forall; intros p I; apply filter_In in I; apply F1, I|].
    split; [apply Forall_forall; intros e I; apply in_map_iff in I; destruct I as (p & <- & I); apply filter_In in I; apply F1, I|].
    split; [exact N0|exact A].
  - exists d'. split; [exact E|]. split; [exact O'|]. rewrite ER. unfold R, cut. cbn [d_ext d_blobs].
    symmetry. apply (filter_map_fst (fun k => negb (in_erange lo hi k))).
Qed.
Lemma ds_range_R d lo hi : map (fun p => (fst p, res (d_blobs d) (snd p))) (ds_range d lo hi) = within lo hi (R d).
Proof. symmetry. apply (filter_map_fst (fun k => in_erange lo hi k)). Qed.
Lemma fetch_ok d lo hi : dsok d -> fetch d (ds_range d lo hi) = Some (within lo hi (R d)).
Proof.
  intros (_ & _ & _ & F1 & _). rewrite <- ds_range_R.
  assert (F : Forall (fun p => stored (d_blobs d) (snd p)) (ds_range d lo hi)).
  { apply Forall_forall. intros p I. apply filter_In in I. rewrite Forall_forall in F1. apply F1, I. }
  induction F as [|[k e] l S F IH]; [reflexivity|]. cbn [fetch map fst snd]. rewrite IH.
  destruct e as [b|r n]; [reflexivity|]. cbn in S. destruct S as (b & G & _). cbn. now rewrite G.
Qed.
Lemma ext_len_res bl e : stored bl e -> ext_len e = zlen (res bl e).
Proof. destruct e as [b|r l]; [reflexivity|]. cbn. intros (b & -> & ->). reflexivity. Qed.

Lemma stored_set bl r b e : zm_ok bl -> zm_get r bl = None -> stored bl e -> stored (zm_set r b bl) e /\ res (zm_set r b bl) e = res bl e.
Proof.
  intros Ok N S. destruct e as [b'|r' l]; [split; [exact I|reflexivity]|]. destruct S as (b' & G & ->).
  assert (r' <> r) by congruence. assert (E : zm_get r' (zm_set r b bl) = Some b').
  { rewrite zm_get_set by exact Ok. destruct (Z.eqb_spec r' r); [congruence|exact G]. }
  split; [exists b'; auto|]. cbn. now rewrite E, G.
Qed.

Lemma flush_exts_ok : forall es bl nx frz, zm_ok bl -> Forall (fun p => stored bl (snd p)) es -> Forall (fun k => k < nx) (map fst bl) ->
  let '(es', bl', nx') := flush_exts es bl nx in
  zm_ok bl' /\ map fst es' = map fst es /\ Forall (fun p => stored bl' (snd p)) es' /\ nx <= nx' /\
  map (fun p => (fst p, res bl' (snd p))) es' = map (fun p => (fst p, res bl (snd p))) es /\
  (forall e, stored bl e -> stored bl' e /\ res bl' e = res bl e) /\
  Permutation (rids es') (rids es ++ zrange nx nx') /\ Permutation (map fst bl') (map fst bl ++ zrange nx nx') /\
  (Permutation (frz ++ map fst bl) (zrange 0 nx) -> 0 <= nx -> Permutation (frz ++ map fst bl') (zrange 0 nx')).
Proof.
  induction es as [|[k e] es IH]; intros bl nx frz Ok F L; cbn [flush_exts].
  - rewrite zrange_empty by lia. rewrite !app_nil_r. repeat (split; [solve [auto|lia]|]). auto.
  - inversion F as [|? ? S F']; subst. cbn [snd] in S.
    assert (Keep : let '(r', bl', nx') := flush_exts es bl nx in
      zm_ok bl' /\ map fst ((k, e) :: r') = map fst ((k, e) :: es) /\ Forall (fun p => stored bl' (snd p)) ((k, e) :: r') /\ nx <= nx' /\
      map (fun p => (fst p, res bl' (snd p))) ((k, e) :: r') = map (fun p => (fst p, res bl (snd p))) ((k, e) :: es) /\
      (forall e, stored bl e -> stored bl' e /\ res bl' e = res bl e) /\
      Permutation (rids ((k, e) :: r')) (rids ((k, e) :: es) ++ zrange nx nx') /\ Permutation (map fst bl') (map fst bl ++ zrange nx nx') /\
      (Permutation (frz ++ map fst bl) (zrange 0 nx) -> 0 <= nx -> Permutation (frz ++ map fst bl') (zrange 0 nx'))).
    { specialize (IH bl nx frz Ok F' L). destruct (flush_exts es bl nx) as [[r' bl'] nx']. destruct IH as (H1&H2&H3&H4&H5&H6&H7&H8&H9).
      split; [exact H1|]. split; [cbn [map fst]; now rewrite H2|]. split; [constructor; [apply H6; exact S|exact H3]|]. split; [exact H4|].
      split; [cbn [map fst snd]; rewrite H5; f_equal; f_equal; apply H6; exact S|]. split; [exact H6|].
      split; [cbn [rids flat_map snd]; fold (rids r') (rids es); rewrite <- app_assoc; now apply Permutation_app_head|]. split; [exact H8|exact H9]. }
    destruct e as [b|r l].
    2:{ destruct (flush_exts es bl nx) as [[r' bl'] nx']. exact Keep. }
    destruct (BLOB_THRESHOLD <? zlen b).
    2:{ destruct (flush_exts es bl nx) as [[r' bl'] nx']. exact Keep. }
    clear Keep. assert (N : zm_get nx bl = None).
    { destruct (zm_get nx bl) as [x|] eqn:G; [|reflexivity]. apply zm_get_in in G. rewrite Forall_forall in L.
      specialize (L nx). rewrite in_map_iff in L. specialize (L (ex_intro _ (nx, x) (conj eq_refl G))). lia. }
    specialize (IH (zm_set nx b bl) (nx + 1) frz (zm_ok_set _ _ _ Ok)).
    destruct (flush_exts es (zm_set nx b bl) (nx + 1)) as [[r' bl'] nx'].
    destruct IH as (H1&H2&H3&H4&H5&H6&H7&H8&H9).
    { eapply Forall_impl; [|exact F']. intros p Sp. apply stored_set; auto. }
    { rewrite keys_set by assumption. constructor; [lia|]. eapply Forall_impl; [|exact L]. cbn. lia. }
    assert (Sb : stored bl' (Blob nx (zlen b)) /\ res bl' (Blob nx (zlen b)) = b).
    { destruct (H6 (Blob nx (zlen b))) as [A B].
      { exists b. rewrite zm_get_set, Z.eqb_refl by exact Ok. auto. }
      split; [exact A|]. rewrite B. cbn [res]. rewrite zm_get_set, Z.eqb_refl by exact Ok. reflexivity. }
    split; [exact H1|]. split; [cbn [map fst]; now rewrite H2|]. split; [constructor; [apply Sb|exact H3]|]. split; [lia|].
    split. { cbn [map fst snd]. rewrite H5. f_equal; [f_equal; apply Sb|]. apply map_ext_in. intros p Ip. f_equal. apply stored_set; auto.
      rewrite Forall_forall in F'. apply F'. exact Ip. }
    split. { intros e Se. destruct (stored_set bl nx b e Ok N Se) as [A1 A2]. destruct (H6 e A1) as [B1 B2]. split; [exact B1|congruence]. }
    rewrite (zrange_cons nx nx') by lia.
    split. { cbn [rids flat_map snd rid_of app]. fold (rids r') (rids es). rewrite H7. apply Permutation_middle. }
    split. { rewrite H8, keys_set by assumption. cbn [app]. apply Permutation_middle. }
    intros A L0. apply H9; [|lia]. rewrite keys_set by assumption. rewrite (zrange_snoc 0 (nx + 1)) by lia. replace (nx + 1 - 1) with nx by lia.
    rewrite <- A. rewrite <- Permutation_middle. apply Permutation_cons_append.
Qed.

Lemma ds_flush_ok d : dsok d -> dsok (ds_flush d) /\ R (ds_flush d) = R d.
Proof.
  intros (O1 & O2 & P & F1 & _ & N0 & A). cbn [flat_map] in P. rewrite app_nil_r in P.
  assert (L : Forall (fun k => k < d_next d) (map fst (d_blobs d))).
  { apply Forall_forall. intros k I. assert (I' : In k (zrange 0 (d_next d))) by (rewrite <- A; apply in_or_app; auto). apply in_zrange in I'. lia. }
  pose proof (flush_exts_ok (d_ext d) (d_blobs d) (d_next d) (d_freed d) O2 F1 L) as H. unfold ds_flush.
  destruct (flush_exts (d_ext d) (d_blobs d) (d_next d)) as [[es bl] nx]. destruct H as (H1&H2&H3&H4&H5&H6&H7&H8&H9).
  split; [|exact H5].
  split; [unfold zm_ok; cbn [d_ext]; rewrite H2; exact O1|]. split; [exact H1|]. cbn [d_ext d_blobs d_freed d_next flat_map]. rewrite app_nil_r.
  split; [rewrite H7, H8, P; reflexivity|]. split; [exact H3|]. split; [constructor|]. split; [lia|]. auto.
Qed.

(** * Bytes of lists *)
Definition byte_at (l : list Z) (i : Z) : Z := match lget l i with Some x => x | None => 0 end.
Lemma byte_out l i : ~ (0 <= i < zlen l) -> byte_at l i = 0.
Proof. intros H. unfold byte_at. now rewrite lget_none. Qed.
Lemma byte_app l1 l2 i : byte_at (l1 ++ l2) i = if i <? zlen l1 then byte_at l1 i else byte_at l2 (i - zlen l1).
Proof. unfold byte_at. rewrite lget_app. now destruct (i <? zlen l1). Qed.
Lemma byte_zeros n i : byte_at (zrepeat 0 n) i = 0.
Proof.
  destruct (Z_le_dec 0 i) as [H|H]; [destruct (Z_lt_dec i (zlen (zrepeat 0 n))) as [H1|H1]|]; try (apply byte_out; lia).
  unfold byte_at, zrepeat in *. rewrite lget_repeat; [reflexivity|]. unfold zlen in H1. rewrite repeat_length in H1. lia.
Qed.
Lemma byte_take n l i : i < n -> byte_at (ztake n l) i = byte_at l i.
Proof.
  intros L. destruct (Z_le_dec 0 i) as [H|H]; [|rewrite !byte_out by lia; reflexivity].
  rewrite <- (ztake_drop n l) at 2. rewrite byte_app. destruct (Z.ltb_spec i (zlen (ztake n l))) as [H1|H1]; [reflexivity|].
  rewrite (byte_out (ztake n l)) by lia. symmetry. apply byte_out. rewrite zlen_take_min in H1 by lia. rewrite zlen_drop by lia. rewrite zlen_take_min by lia. lia.
Qed.
Lemma byte_drop n l i : 0 <= n -> 0 <= i -> byte_at (zdrop n l) i = byte_at l (n + i).
Proof.
  intros L H. destruct (Z_le_dec n (zlen l)) as [N|N].
  - rewrite <- (ztake_drop n l) at 2. rewrite byte_app, zlen_take by lia. destruct (Z.ltb_spec (n + i) n); [lia|]. f_equal. lia.
  - rewrite !byte_out; [reflexivity| |]; try rewrite zlen_drop by lia; lia.
Qed.
Lemma byte_slice l a b i : 0 <= a -> 0 <= i < b - a -> byte_at (slice l a b) i = byte_at l (a + i).
Proof. intros. unfold slice. rewrite byte_take by lia. apply byte_drop; lia. Qed.
Lemma zlen_slice {A} (l : list A) a b : 0 <= a <= b -> b <= zlen l -> zlen (slice l a b) = b - a.
Proof. intros. unfold slice. rewrite zlen_take_min, zlen_drop by lia. lia. Qed.
Lemma resize_spec l n : zlen l <= n -> zlen (resize l n) = n /\ forall i, byte_at (resize l n) i = byte_at l i.
Proof.
  intros H. unfold resize. rewrite ztake_all by exact H. pose proof (zlen_nonneg l). split.
  - rewrite zlen_app, zlen_repeat by lia. lia.
  - intros i. rewrite byte_app, byte_zeros. destruct (Z.ltb_spec i (zlen l)); [reflexivity|]. symmetry. apply byte_out. lia.
Qed.
Lemma overwrite_spec b o c : 0 <= o -> o + zlen c <= zlen b -> exists b', overwrite b o c = Some b' /\ zlen b' = zlen b /\
  forall i, byte_at b' i = if (o <=? i) && (i <? o + zlen c) then byte_at c (i - o) else byte_at b i.
Proof.
  intros H1 H2. unfold overwrite. replace ((0 <=? o) && (o + zlen c <=? zlen b)) with true by lia. eexists. split; [reflexivity|].
  pose proof (zlen_nonneg c). split.
  - rewrite !zlen_app, zlen_take, zlen_drop by lia. lia.
  - intros i. rewrite !byte_app, zlen_take by lia. destruct (Z.ltb_spec i o); [|destruct (Z.ltb_spec (i - o) (zlen c))].
    + rewrite byte_take by lia. now replace ((o <=? i) && (i <? o + zlen c)) with false by lia.
    + now replace ((o <=? i) && (i <? o + zlen c)) with true by lia.
    + replace ((o <=? i) && (i <? o + zlen c)) with false by lia. rewrite byte_drop by lia. f_equal. lia.
Qed.

(** * File contents *)
Section Contents.
Context (rs : Z).
Context (RS : 0 < rs).

Definition cont (m : list (Z * list Z)) (i : Z) : Z :=
  match zm_get (i - i mod rs) m with Some b => byte_at b (i mod rs) | None => 0 end.
Definition rec_ok (size : Z) (p : Z * list Z) : Prop :=
  0 <= fst p /\ fst p mod rs = 0 /\ 0 < zlen (snd p) <= rs /\ fst p + zlen (snd p) <= size.
Definition total (m : list (Z * list Z)) : Z := fold_right (fun p a => zlen (snd p) + a) 0 m.

Lemma base_of k i : k mod rs = 0 -> k <= i < k + rs -> i - i mod rs = k /\ i mod rs = i - k.
Proof.
  intros K H. assert (E : i mod rs = i - k).
  { symmetry. apply Z.mod_unique_pos with (q := k / rs); [lia|]. pose proof (Z.div_mod k rs). lia. }
  split; lia.
Qed.
Lemma mod_range i : 0 <= i mod rs < rs.
Proof. apply Z.mod_pos_bound. exact RS. Qed.
Lemma base_mod i : (i - i mod rs) mod rs = 0.
Proof. rewrite Zminus_mod_idemp_r. replace (i - i) with 0 by lia. reflexivity. Qed.

Lemma cont_set m k b i : zm_ok m -> k mod rs = 0 ->
  cont (zm_set k b m) i = if (k <=? i) && (i <? k + rs) then byte_at b (i - k) else cont m i.
Proof.
  intros Ok K. unfold cont. rewrite zm_get_set by exact Ok. pose proof (mod_range i).
  destruct (Z.eqb_spec (i - i mod rs) k) as [E|E].
  - replace ((k <=? i) && (i <? k + rs)) with true by lia. f_equal. lia.
  - replace ((k <=? i) && (i <? k + rs)) with false; [reflexivity|]. symmetry.
    destruct (Z_le_dec k i); destruct (Z_lt_dec i (k + rs)); try lia. destruct (base_of k i K); lia.
Qed.
Lemma cont_del m k i : zm_ok m -> k mod rs = 0 ->
  cont (zm_del k m) i = if (k <=? i) && (i <? k + rs) then 0 else cont m i.
Proof.
  intros Ok K. unfold cont. rewrite zm_get_del by exact Ok. pose proof (mod_range i).
  destruct (Z.eqb_spec (i - i mod rs) k) as [E|E].
  - now replace ((k <=? i) && (i <? k + rs)) with true by lia.
  - replace ((k <=? i) && (i <? k + rs)) with false; [reflexivity|]. symmetry.
    destruct (Z_le_dec k i); destruct (Z_lt_dec i (k + rs)); try lia. destruct (base_of k i K); lia.
Qed.
Lemma cont_rec m k i : k mod rs = 0 -> k <= i < k + rs ->
  cont m i = match zm_get k m with Some b => byte_at b (i - k) | None => 0 end.
Proof. intros K H. unfold cont. destruct (base_of k i K H) as [-> ->]. reflexivity. Qed.

Lemma total_set m k b : zm_ok m -> total (zm_set k b m) = total m + zlen b - match zm_get k m with Some o => zlen o | None => 0 end.
Proof.
  induction m as [|[j w] m IH]; intros Ok; [cbn; lia|]. apply zm_ok_cons in Ok. destruct Ok as [Ok F]. specialize (IH Ok). cbn [zm_set zm_get].
  destruct (Z.ltb_spec k j), (Z.eqb_spec k j); subst; try lia.
  - rewrite zm_get_lt; [cbn [total fold_right snd]; fold (total m); lia|]. eapply Forall_impl; [|exact F]. cbn. lia.
  - cbn [total fold_right snd]. fold (total m). lia.
  - cbn [total fold_right snd]. fold (total m) (total (zm_set k b m)). lia.
Qed.
Lemma total_del m k : zm_ok m -> total (zm_del k m) = total m - match zm_get k m with Some o => zlen o | None => 0 end.
Proof.
  induction m as [|[j w] m IH]; intros Ok; [cbn; lia|]. apply zm_ok_cons in Ok. destruct Ok as [Ok F]. specialize (IH Ok). cbn [zm_del zm_get].
  destruct (Z.eqb_spec k j); cbn [total fold_right snd]; fold (total m) (total (zm_del k m)); lia.
Qed.
Lemma total_filter (p : Z * list Z -> bool) m : total m = total (filter p m) + total (filter (fun x => negb (p x)) m).
Proof. induction m as [|x m IH]; [reflexivity|]. cbn [filter]. destruct (p x); cbn [negb total fold_right] in *; unfold total in *; lia. Qed.
Lemma total_nonneg m : 0 <= total m.
Proof. induction m as [|x m IH]; cbn [total fold_right]; [lia|]. pose proof (zlen_nonneg (snd x)). fold (total m). lia. Qed.
Lemma set_recs (P : Z * list Z -> Prop) m k b : Forall P m -> P (k, b) -> Forall P (zm_set k b m).
Proof.
  intros F H. apply Forall_forall. intros p I. apply zm_set_fst in I. destruct I as [->|I]; [exact H|]. rewrite Forall_forall in F. auto.
Qed.
Lemma del_recs (P : Z * list Z -> Prop) m k : Forall P m -> Forall P (zm_del k m).
Proof. intros F. apply Forall_forall. intros p I. apply zm_del_in in I. rewrite Forall_forall in F. auto. Qed.
Lemma get_rec size m k b : Forall (rec_ok size) m -> zm_get k m = Some b -> rec_ok size (k, b).
Proof. intros F G. apply zm_get_in in G. rewrite Forall_forall in F. auto. Qed.
Lemma recs_mono size size' m : size <= size' -> Forall (rec_ok size) m -> Forall (rec_ok size') m.
Proof. intros L. apply Forall_impl. intros p (A&B&C&D). split; [exact A|]. split; [exact B|]. split; [exact C|lia]. Qed.
Lemma zm_set_set {A} (m : list (Z * A)) k a b : zm_ok m -> zm_set k b (zm_set k a m) = zm_set k b m.
Proof.
  intros Ok. apply zm_ext; auto using zm_ok_set. intros j. rewrite !zm_get_set by auto using zm_ok_set. destruct (j =? k); reflexivity.
Qed.
Lemma zm_set_del {A} (m : list (Z * A)) k b : zm_ok m -> zm_set k b (zm_del k m) = zm_set k b m.
Proof.
  intros Ok. apply zm_ext; auto using zm_ok_set, zm_ok_del. intros j. rewrite !zm_get_set, zm_get_del by auto using zm_ok_set, zm_ok_del. destruct (j =? k); reflexivity.
Qed.

Definition good (d : ds) (size : Z) : Prop := dsok d /\ zm_ok (R d) /\ Forall (rec_ok size) (R d).
Lemma dsok_R d : dsok d -> zm_ok (R d).
Proof. intros (O & _). apply zm_ok_map. exact O. Qed.

(** ** Writing *)
Lemma write_record_spec d size offset i c :
  good d size -> 0 <= offset -> 0 <= i ->
  let base := offset - offset mod rs + i * rs in
  let o := if i =? 0 then offset mod rs else 0 in
  0 < o + zlen c <= rs ->
  exists d' delta, write_record d rs offset i c = Some (d', delta) /\
    good d' (Z.max size (base + o + zlen c)) /\ total (R d') = total (R d) + delta /\
    forall j, cont (R d') j = if (base + o <=? j) && (j <? base + o + zlen c) then byte_at c (j - (base + o)) else cont (R d) j.
Proof.
  intros (O & Z0 & F) Lo Li base o Lc. pose proof (mod_range offset) as Mr. pose proof (zlen_nonneg c) as Nc.
  assert (Bm : base mod rs = 0) by (unfold base; rewrite Z_mod_plus_full; apply base_mod).
  assert (B0 : 0 <= base).
  { unfold base. rewrite (Z.div_mod offset rs) at 1 by lia. pose proof (Z.div_pos offset rs Lo RS). nia. }
  assert (Lo0 : 0 <= o) by (unfold o; destruct (i =? 0); lia).
  unfold write_record. cbv zeta.
  replace (if i =? 0 then offset - (offset - offset mod rs) else 0) with o by (unfold o; destruct (i =? 0); lia).
  fold base.
  assert (Fin : forall d1 b old, dsok d1 -> R d1 = R d -> zm_get base (R d) = old -> o + zlen c <= zlen b <= rs ->
    zlen b <= Z.max (o + zlen c) (match old with Some x => zlen x | None => 0 end) ->
    (forall x, 0 <= x < rs -> byte_at b x = if (o <=? x) && (x <? o + zlen c) then byte_at c (x - o) else
       match old with Some x' => byte_at x' x | None => 0 end) -> forall d', dsok d' -> R d' = zm_set base b (R d) ->
    good d' (Z.max size (base + o + zlen c)) /\ total (R d') = total (R d) + (zlen b - match old with Some x => zlen x | None => 0 end) /\
    forall j, cont (R d') j = if (base + o <=? j) && (j <? base + o + zlen c) then byte_at c (j - (base + o)) else cont (R d) j).
  { intros d1 b old O1 E1 G Lb Lb2 Hb d' O' E'. split; [|split].
    - split; [exact O'|]. rewrite E'. split; [apply zm_ok_set; exact Z0|]. apply set_recs; [eapply recs_mono; [|exact F]; lia|].
      split; [exact B0|]. split; [exact Bm|]. cbn [fst snd]. split; [lia|]. destruct old as [x|]; [|lia].
      destruct (get_rec _ _ _ _ F G) as (_&_&_&Hx). cbn [fst snd] in Hx. lia.
    - rewrite E', total_set, G by exact Z0. lia.
    - intros j. rewrite E', cont_set by assumption. destruct ((base <=? j) && (j <? base + rs)) eqn:Ej.
      + rewrite Hb by lia. rewrite (cont_rec _ base j Bm) by lia. rewrite G.
        replace ((base + o <=? j) && (j <? base + o + zlen c)) with ((o <=? j - base) && (j - base <? o + zlen c)) by lia.
        destruct ((o <=? j - base) && (j - base <? o + zlen c)); [f_equal; lia|]. destruct old; reflexivity.
      + now replace ((base + o <=? j) && (j <? base + o + zlen c)) with false by lia. }
  destruct (Z.ltb_spec (zlen c) rs) as [Lw|Lw].
  - destruct (ds_remove_ok d base O) as (d1 & -> & O1 & E1).
    set (old := zm_get base (R d)) in *.
    assert (Hold : forall x, old = Some x -> zlen x <= rs).
    { intros x G. destruct (get_rec _ _ _ _ F G) as (_&_&?&_). cbn [snd] in *. lia. }
    set (bo := match old with Some b => (b, zlen b) | None => (zrepeat 0 (zlen c + o), 0) end).
    assert (Hbo : zlen (fst bo) <= rs /\ snd bo = match old with Some x => zlen x | None => 0 end /\
      (forall x, byte_at (fst bo) x = match old with Some x' => byte_at x' x | None => 0 end) /\
      zlen (fst bo) <= Z.max (o + zlen c) (match old with Some x => zlen x | None => 0 end)).
    { unfold bo. destruct old as [x|]; cbn [fst snd].
      - split; [apply Hold; reflexivity|]. split; [reflexivity|]. split; [reflexivity|lia].
      - rewrite zlen_repeat by lia. split; [lia|]. split; [reflexivity|]. split; [intros; apply byte_zeros|lia]. }
    fold bo. destruct bo as [bs ol]. cbn [fst snd] in Hbo. destruct Hbo as (H1 & -> & H3 & H4).
    destruct (resize_spec bs (Z.max (o + zlen c) (zlen bs)) ltac:(lia)) as [Hr1 Hr2].
    destruct (overwrite_spec (resize bs (Z.max (o + zlen c) (zlen bs))) o c Lo0 ltac:(lia)) as (b & Eb & Hb1 & Hb2). rewrite Eb.
    destruct (ds_insert_ok d1 base b O1) as (d2 & -> & O2 & E2). eexists _, _. split; [reflexivity|].
    apply (Fin d b old O eq_refl eq_refl); [lia|lia| |exact O2|].
    + intros x Hx. rewrite Hb2, Hr2, H3. reflexivity.
    + rewrite E2, E1. apply zm_set_del. exact Z0.
  - destruct (ds_insert_ok d base c O) as (d2 & -> & O2 & E2). eexists _, _. split; [reflexivity|].
    apply (Fin d c _ O eq_refl eq_refl); [lia|lia| |exact O2|exact E2].
    intros x Hx. assert (o = 0) by lia. replace ((o <=? x) && (x <? o + zlen c)) with true by lia. f_equal. lia.
Qed.

Lemma chunk_spec data off0 rec : 0 <= off0 < rs -> 0 <= rec -> let n := uio_nrecs (zlen data) off0 rs in rec < n ->
  exists c, chunk data off0 rs n rec = Some c /\
    c = slice data (Z.max 0 (rec * rs - off0)) (Z.min (zlen data) ((rec + 1) * rs - off0)) /\
    0 < (if rec =? 0 then off0 else 0) + zlen c <= rs /\
    zlen c = Z.min (zlen data) ((rec + 1) * rs - off0) - Z.max 0 (rec * rs - off0).
Proof.
  intros H0 Hr n Hn. pose proof (zlen_nonneg data) as Nd.
  assert (En : n = (off0 + zlen data + rs - 1) / rs).
  { unfold n, uio_nrecs, div_ceil. rewrite (Z.div_small off0 rs) by lia. lia. }
  assert (N1 : rs * n <= off0 + zlen data + rs - 1 < rs * n + rs).
  { rewrite En. pose proof (Z.mul_div_le (off0 + zlen data + rs - 1) rs RS). pose proof (Z.mul_succ_div_gt (off0 + zlen data + rs - 1) rs RS). lia. }
  assert (Hs : forall a b, a = Z.max 0 (rec * rs - off0) -> b = Z.min (zlen data) ((rec + 1) * rs - off0) -> a <= b ->
    slice_chk data a b = Some (slice data (Z.max 0 (rec * rs - off0)) (Z.min (zlen data) ((rec + 1) * rs - off0))) /\
    zlen (slice data (Z.max 0 (rec * rs - off0)) (Z.min (zlen data) ((rec + 1) * rs - off0))) = b - a).
  { intros a b -> -> L. unfold slice_chk. replace (_ && _ && _) with true by lia. split; [reflexivity|]. apply zlen_slice; lia. }
  unfold chunk. destruct (Z.eqb_spec rec 0) as [E0|E0].
  - subst rec. destruct (Hs 0 (Z.min (zlen data) (rs - off0))) as [E L]; [lia|lia|lia|]. rewrite E. eexists. split; [reflexivity|]. split; [reflexivity|].
    rewrite L. split; [|lia]. assert (1 <= n) by lia. split; [|lia]. assert (0 < off0 + zlen data) by nia. lia.
  - assert (G : rec * rs < off0 + zlen data) by nia. assert (rs <= rec * rs) by nia.
    destruct (Z.eqb_spec rec (n - 1)) as [E1|E1].
    + destruct (Hs (Z.min (zlen data) (rs - off0) + (rec - 1) * rs) (zlen data)) as [E L]; [nia|nia|nia|]. rewrite E. eexists. split; [reflexivity|].
      split; [reflexivity|]. rewrite L. split; nia.
    + assert (rec + 1 <= n - 1) by lia. assert ((rec + 1) * rs < off0 + zlen data) by nia.
      destruct (Hs (Z.min (zlen data) (rs - off0) + (rec - 1) * rs) (Z.min (zlen data) (rs - off0) + rec * rs)) as [E L]; [nia|nia|nia|].
      rewrite E. eexists. split; [reflexivity|]. split; [reflexivity|]. rewrite L. split; nia.
Qed.

Lemma chunks_spec data off0 : 0 <= off0 < rs -> let n := uio_nrecs (zlen data) off0 rs in
  forall k rec, 0 <= rec -> rec + Z.of_nat k = n ->
  exists cs, chunks_from data off0 rs n rec k = Some cs /\
    cs = map (fun r => slice data (Z.max 0 (r * rs - off0)) (Z.min (zlen data) ((r + 1) * rs - off0))) (zrange rec n).
Proof.
  intros H0 n. induction k as [|k IH]; intros rec Hr Hk.
  - exists []. split; [reflexivity|]. rewrite zrange_empty by lia. reflexivity.
  - destruct (chunk_spec data off0 rec H0 Hr ltac:(unfold n in *; lia)) as (c & E & Ec & _). fold n in E.
    destruct (IH (rec + 1) ltac:(lia) ltac:(lia)) as (cs & E2 & Ecs). cbn [chunks_from]. rewrite E, E2. eexists. split; [reflexivity|].
    rewrite (zrange_cons rec n) by lia. cbn [map]. now rewrite Ec, Ecs.
Qed.

Lemma write_records_spec data offset : 0 <= offset -> let off0 := offset mod rs in let n := uio_nrecs (zlen data) off0 rs in
  let base := offset - off0 in
  forall k i d size, 0 <= i -> i + Z.of_nat k = n -> good d size ->
  exists d' delta,
    write_records d rs offset i (map (fun r => slice data (Z.max 0 (r * rs - off0)) (Z.min (zlen data) ((r + 1) * rs - off0))) (zrange i n)) = Some (d', delta) /\
    good d' (Z.max size (offset + zlen data)) /\ total (R d') = total (R d) + delta /\
    forall j, cont (R d') j = if (Z.max offset (base + i * rs) <=? j) && (j <? offset + zlen data) then byte_at data (j - offset) else cont (R d) j.
Proof.
  intros Lo off0 n base. pose proof (mod_range offset) as Mr. fold off0 in Mr. pose proof (zlen_nonneg data) as Nd.
  assert (En : n = (off0 + zlen data + rs - 1) / rs).
  { unfold n, uio_nrecs, div_ceil. rewrite (Z.div_small off0 rs) by lia. lia. }
  assert (N1 : rs * n <= off0 + zlen data + rs - 1 < rs * n + rs).
  { rewrite En. pose proof (Z.mul_div_le (off0 + zlen data + rs - 1) rs RS). pose proof (Z.mul_succ_div_gt (off0 + zlen data + rs - 1) rs RS). lia. }
  induction k as [|k IH]; intros i d size Hi Hk G.
  - rewrite zrange_empty by lia. cbn [map write_records]. exists d, 0. split; [reflexivity|].
    split; [destruct G as (A&B&C); split; [exact A|]; split; [exact B|]; eapply recs_mono; [|exact C]; lia|]. split; [lia|].
    intros j. assert (i = n) by lia. subst i. replace ((Z.max offset (base + n * rs) <=? j) && (j <? offset + zlen data)) with false; [reflexivity|].
    symmetry. unfold base. assert (off0 + zlen data <= n * rs) by nia. lia.
  - rewrite (zrange_cons i n) by lia. cbn [map write_records].
    destruct (chunk_spec data off0 i Mr Hi ltac:(unfold n in *; lia)) as (c & _ & Ec & Lc & Zc).
    rewrite <- Ec.
    destruct (write_record_spec d size offset i c G Lo Hi Lc) as (d1 & x & E1 & G1 & T1 & C1). fold off0 in G1, C1. fold base in G1, C1. rewrite E1.
    destruct (IH (i + 1) d1 _ ltac:(lia) ltac:(lia) G1) as (d2 & y & E2 & G2 & T2 & C2). rewrite E2. exists d2, (x + y). split; [reflexivity|].
    assert (St : base + i * rs + (if i =? 0 then off0 else 0) = Z.max offset (base + i * rs)).
    { destruct (Z.eqb_spec i 0) as [->|]; unfold base; nia. }
    assert (Fi : base + i * rs + (if i =? 0 then off0 else 0) + zlen c = Z.min (offset + zlen data) (base + (i + 1) * rs)).
    { rewrite Zc. destruct (Z.eqb_spec i 0) as [->|]; unfold base; [lia|]. assert (rs <= i * rs) by nia. lia. }
    split. { destruct G2 as (A&B&C). split; [exact A|]. split; [exact B|]. eapply recs_mono; [|exact C]. lia. }
    split; [lia|]. intros j. rewrite C2, C1, St. rewrite St in Fi. rewrite Fi.
    assert (Lst : Z.max offset (base + i * rs) <= Z.max offset (base + (i + 1) * rs)) by nia.
    destruct ((Z.max offset (base + (i + 1) * rs) <=? j) && (j <? offset + zlen data)) eqn:E3.
    + replace ((Z.max offset (base + i * rs) <=? j) && (j <? offset + zlen data)) with true by lia. reflexivity.
    + destruct ((Z.max offset (base + i * rs) <=? j) && (j <? Z.min (offset + zlen data) (base + (i + 1) * rs))) eqn:E4.
      * replace ((Z.max offset (base + i * rs) <=? j) && (j <? offset + zlen data)) with true by lia.
        rewrite Ec. assert (Z.max offset (base + i * rs) - offset = Z.max 0 (i * rs - off0)) by (unfold base; lia).
        rewrite byte_slice; [f_equal; lia|lia|]. unfold base in *. lia.
      * assert (offset <= base + (i + 1) * rs) by (unfold base; nia).
        replace ((Z.max offset (base + i * rs) <=? j) && (j <? offset + zlen data)) with false; [reflexivity|]. lia.
Qed.

Definition fgood (f : file) : Prop := good (f_ds f) (f_size f) /\ 0 <= f_size f /\ f_bytes f = total (R (f_ds f)).

Lemma write_spec f offset data : fgood f -> 0 <= offset -> exists f', write rs f offset data = Some (f', zlen data) /\ fgood f' /\
  f_size f' = Z.max (f_size f) (offset + zlen data) /\
  forall j, cont (R (f_ds f')) j = if (offset <=? j) && (j <? offset + zlen data) then byte_at data (j - offset) else cont (R (f_ds f)) j.
Proof.
  intros (G & S0 & B) Lo. unfold write. cbv zeta. pose proof (mod_range offset) as Mr. pose proof (zlen_nonneg data) as Nd.
  assert (Nn : 0 <= uio_nrecs (zlen data) (offset mod rs) rs).
  { unfold uio_nrecs, div_ceil. rewrite (Z.div_small (offset mod rs) rs) by lia. pose proof (Z.div_pos (offset mod rs + zlen data + rs - 1) rs). lia. }
  unfold into_chunks. destruct (chunks_spec data (offset mod rs) Mr (Z.to_nat (uio_nrecs (zlen data) (offset mod rs) rs)) 0) as (cs & E & ->); [lia|lia|].
  rewrite E. destruct (write_records_spec data offset Lo (Z.to_nat (uio_nrecs (zlen data) (offset mod rs) rs)) 0 (f_ds f) (f_size f)) as (d & x & E2 & G2 & T2 & C2); [lia|lia|exact G|].
  rewrite E2. eexists. split; [reflexivity|]. split; [|split; [reflexivity|]].
  - split; [exact G2|]. split; [cbn; lia|]. cbn [f_ds f_bytes]. unfold sat_add. pose proof (total_nonneg (R d)). lia.
  - intros j. cbn [f_ds]. rewrite C2. replace (Z.max offset (offset - offset mod rs + 0 * rs)) with offset by lia. reflexivity.
Qed.

(** ** Reading *)
Lemma base_mono i j : i <= j -> i - i mod rs <= j - j mod rs.
Proof.
  intros H. pose proof (Z.div_mod i rs ltac:(lia)). pose proof (Z.div_mod j rs ltac:(lia)). pose proof (Z.div_le_mono i j rs RS H). nia.
Qed.
Lemma list_bytes l : forall k, l = map (fun i => byte_at l (i - k)) (zrange k (k + zlen l)).
Proof.
  induction l as [|x l IH]; intros k.
  - rewrite zrange_empty; [reflexivity|]. rewrite zlen_nil. lia.
  - rewrite zlen_cons. pose proof (zlen_nonneg l). rewrite zrange_cons by lia. cbn [map]. f_equal.
    + replace (k - k) with 0 by lia. reflexivity.
    + rewrite (IH (k + 1)) at 1. replace (k + 1 + zlen l) with (k + (1 + zlen l)) by lia. apply map_ext_in. intros i I. apply in_zrange in I.
      change (x :: l) with ([x] ++ l). rewrite byte_app. change (zlen [x]) with 1. destruct (Z.ltb_spec (i - k) 1); [lia|]. f_equal. lia.
Qed.
Lemma zeros_bytes (f : Z -> Z) p q : (forall i, p <= i < q -> f i = 0) -> zrepeat 0 (q - p) = map f (zrange p q).
Proof.
  intros H. destruct (Z_le_dec q p) as [L|L].
  { rewrite zrange_empty by lia. unfold zrepeat. now replace (Z.to_nat (q - p)) with O by lia. }
  rewrite (list_bytes (zrepeat 0 (q - p)) p) at 1. rewrite zlen_repeat by lia. replace (p + (q - p)) with q by lia.
  apply map_ext_in. intros i I. apply in_zrange in I. rewrite byte_zeros, H by lia. reflexivity.
Qed.
Lemma fill_holes_spec : forall fuel sg p q, (Z.to_nat (q - p) <= fuel)%nat ->
  exists zs, fill_holes fuel sg p q = (sg ++ zs, Z.max p q) /\ concat zs = zrepeat 0 (q - p).
Proof.
  assert (Triv : forall (sg : list (list Z)) p q, q <= p -> exists zs, (sg, p) = (sg ++ zs, Z.max p q) /\ concat zs = zrepeat 0 (q - p)).
  { intros sg p q L. exists []. rewrite app_nil_r. split; [f_equal; lia|]. unfold zrepeat. now replace (Z.to_nat (q - p)) with O by lia. }
  induction fuel as [|fuel IH]; intros sg p q Lf; cbn [fill_holes].
  - apply Triv. lia.
  - destruct (Z.ltb_spec p q); [|apply Triv; lia].
    set (l := Z.min (q - p) ZERO_REGION_LEN). assert (0 < l <= q - p) by (unfold l, ZERO_REGION_LEN; lia).
    destruct (IH (sg ++ [zrepeat 0 l]) (p + l) q ltac:(lia)) as (zs & -> & C). exists (zrepeat 0 l :: zs). split.
    + rewrite <- app_assoc. cbn [app]. f_equal. lia.
    + cbn [concat]. rewrite C, zrepeat_app by lia. f_equal. lia.
Qed.

Definition lrec (p : Z * list Z) : Prop := fst p mod rs = 0 /\ zlen (snd p) <= rs.
Lemma cont_cons k b l i : cont ((k, b) :: l) i = if i - i mod rs =? k then byte_at b (i mod rs) else cont l i.
Proof. unfold cont. cbn [zm_get]. now destruct (i - i mod rs =? k). Qed.
Lemma cont_below l i : Forall (fun p => i < fst p) l -> cont l i = 0.
Proof.
  intros F. unfold cont. rewrite zm_get_lt; [reflexivity|]. eapply Forall_impl; [|exact F]. cbn. pose proof (mod_range i). intros. lia.
Qed.
(** the bytes of the first record, then those of the others *)
Lemma cont_head k b l i : k mod rs = 0 -> zlen b <= rs -> zm_ok ((k, b) :: l) -> k <= i ->
  cont ((k, b) :: l) i = if i <? k + zlen b then byte_at b (i - k) else cont l i.
Proof.
  intros K Lb Ok Li. rewrite cont_cons. pose proof (mod_range i). destruct (Z.ltb_spec i (k + zlen b)).
  - destruct (base_of k i K ltac:(lia)) as [E1 E2]. rewrite E1, E2, Z.eqb_refl. reflexivity.
  - destruct (Z.eqb_spec (i - i mod rs) k) as [E|E]; [|reflexivity]. rewrite byte_out by lia.
    unfold cont. rewrite E. apply zm_ok_cons in Ok. rewrite zm_get_lt by apply Ok. reflexivity.
Qed.
Lemma next_rec k j : k mod rs = 0 -> j mod rs = 0 -> k < j -> k + rs <= j.
Proof.
  intros K J L. pose proof (Z.div_mod k rs ltac:(lia)). pose proof (Z.div_mod j rs ltac:(lia)).
  assert (k / rs < j / rs) by nia. nia.
Qed.

Lemma read_fold_spec offset n : 0 <= n -> forall l sg p rec,
  zm_ok l -> Forall lrec l -> Forall (fun q => fst q < offset + n) l -> offset <= p <= offset + n ->
  (rec = 0 /\ p = offset /\ Forall (fun q => offset - offset mod rs <= fst q) l) \/ Forall (fun q => p <= fst q) l ->
  exists sg' p', read_fold offset n sg p rec l = Some (sg', p') /\ p <= p' <= offset + n /\
    concat sg' = concat sg ++ map (cont l) (zrange p p') /\ forall i, p' <= i < offset + n -> cont l i = 0.
Proof.
  intros Hn. induction l as [|[k b] l IH]; intros sg p rec Ok Fr Fe Lp Hp.
  { exists sg, p. split; [reflexivity|]. split; [lia|]. split; [rewrite zrange_empty by lia; cbn; now rewrite app_nil_r|]. reflexivity. }
  inversion Fr as [|? ? Hr Fr']; subst. inversion Fe as [|? ? He Fe']; subst. destruct Hr as [K Lb]. cbn [fst snd] in *.
  pose proof (proj1 (zm_ok_cons _ _ _) Ok) as [Ok' Fk]. pose proof (zlen_nonneg b) as Nb.
  assert (Nx : Forall (fun q => k + rs <= fst q) l).
  { apply Forall_forall. intros q I. rewrite Forall_forall in Fk, Fr'. apply next_rec; [exact K|apply (Fr' _ I)|apply (Fk _ I)]. }
  assert (Step : forall sg1 p1 rec1, k <= p1 -> p <= p1 <= offset + n -> p1 <= k + rs -> (k + zlen b <= p1 \/ p1 = offset + n) ->
    concat sg1 = concat sg ++ map (cont ((k, b) :: l)) (zrange p p1) ->
    exists sg' p', read_fold offset n sg1 p1 rec1 l = Some (sg', p') /\ p <= p' <= offset + n /\
      concat sg' = concat sg ++ map (cont ((k, b) :: l)) (zrange p p') /\ forall i, p' <= i < offset + n -> cont ((k, b) :: l) i = 0).
  { intros sg1 p1 rec1 H1 H2 H3 H4 H5.
    destruct (IH sg1 p1 rec1 Ok' Fr' Fe' ltac:(lia)) as (sg' & p' & E & L' & C & T).
    { right. eapply Forall_impl; [|exact Nx]. cbn. intros. lia. }
    assert (Same : forall i, p1 <= i < offset + n -> cont ((k, b) :: l) i = cont l i).
    { intros i Hi. rewrite cont_head by (auto; lia). destruct (Z.ltb_spec i (k + zlen b)); [lia|reflexivity]. }
    exists sg', p'. split; [exact E|]. split; [lia|]. split.
    - rewrite C, H5, <- app_assoc. f_equal. rewrite (zrange_split p p1 p') by lia. rewrite !map_app. f_equal.
      apply map_ext_in. intros i I. apply in_zrange in I. symmetry. apply Same. lia.
    - intros i Hi. rewrite Same by lia. apply T. lia. }
  cbn [read_fold]. destruct (Z.ltb_spec k p) as [Lk|Lk].
  - destruct Hp as [(-> & -> & Fb)|Fp]; [|inversion Fp; cbn [fst] in *; lia].
    inversion Fb as [|? ? Hb _]; subst. cbn [fst] in Hb. pose proof (mod_range offset) as Mr.
    assert (Ek : k = offset - offset mod rs).
    { destruct (Z_lt_dec (offset - offset mod rs) k) as [G|G]; [|lia]. pose proof (next_rec _ _ (base_mod offset) K G). lia. }
    change (0 =? 0) with true. cbn iota.
    set (s := offset - k). set (e := Z.min (zlen b) (offset + n - k)). destruct (Z.ltb_spec s e) as [Ls|Ls].
    + assert (Zs : zlen (slice b s e) = e - s) by (apply zlen_slice; unfold s, e in *; lia).
      apply Step; [unfold s in *; lia|unfold s, e in *; lia|unfold s, e in *; lia|unfold s, e in *; lia|].
      rewrite concat_app. cbn [concat]. rewrite app_nil_r. f_equal. rewrite (list_bytes (slice b s e) offset) at 1. rewrite Zs.
      replace (offset + (e - s)) with (offset + zlen (slice b s e)) by lia. apply map_ext_in. intros i I. apply in_zrange in I. rewrite Zs in I.
      rewrite byte_slice by (unfold s, e in *; lia). rewrite cont_head by (auto; lia). destruct (Z.ltb_spec i (k + zlen b)); [f_equal; unfold s; lia|unfold s, e in *; lia].
    + apply Step; [lia|lia|lia|unfold s, e in *; lia|]. rewrite zrange_empty by lia. cbn [map]. now rewrite app_nil_r.
  - destruct (fill_holes_spec (Z.to_nat (k - p)) sg p k ltac:(lia)) as (zs & -> & Cz). rewrite Z.max_r by lia.
    set (b1 := if offset + n <? k + zlen b then ztake (offset + n - k) b else b).
    assert (Zb : zlen b1 = Z.min (zlen b) (offset + n - k)).
    { unfold b1. destruct (Z.ltb_spec (offset + n) (k + zlen b)); [rewrite zlen_take by lia; lia|lia]. }
    apply Step; [lia|lia|lia|lia|].
    rewrite !concat_app. cbn [concat]. rewrite app_nil_r, Cz, <- app_assoc. f_equal. rewrite (zrange_split p k (k + zlen b1)) by lia. rewrite map_app. f_equal.
    + apply zeros_bytes. intros i Hi. rewrite cont_below; [reflexivity|]. constructor; [cbn; lia|]. eapply Forall_impl; [|exact Fk]. cbn. lia.
    + rewrite (list_bytes b1 k) at 1. apply map_ext_in. intros i I. apply in_zrange in I. rewrite cont_head by (auto; lia).
      destruct (Z.ltb_spec i (k + zlen b)); [|lia]. unfold b1. destruct (offset + n <? k + zlen b); [apply byte_take; lia|reflexivity].
Qed.

Lemma read_spec f offset size : fgood f -> 0 <= offset -> 0 <= size -> exists sg, read rs f offset size = Some sg /\
  concat sg = map (cont (R (f_ds f))) (zrange offset (Z.min (offset + size) (f_size f))).
Proof.
  intros ((O & Ok & F) & S0 & B) Lo Ls. unfold read, do_read. cbv zeta. set (n := Z.min size (Z.max 0 (f_size f - offset))).
  rewrite (fetch_ok _ _ _ O). set (L := within (offset - offset mod rs) (Some (offset + n)) (R (f_ds f))).
  assert (FL : Forall (fun q => offset - offset mod rs <= fst q < offset + n) L).
  { apply Forall_forall. intros q I. apply filter_In in I. destruct I as [_ I]. unfold in_erange in I. lia. }
  destruct (read_fold_spec offset n ltac:(lia) L [] offset 0) as (sg & p & E & Lp & C & T).
  - apply zm_ok_filter. exact Ok.
  - apply Forall_forall. intros q I. apply filter_In in I. rewrite Forall_forall in F. destruct (F q (proj1 I)) as (_&A&A2&_). split; [exact A|lia].
  - eapply Forall_impl; [|exact FL]. cbn. lia.
  - lia.
  - left. split; [reflexivity|]. split; [reflexivity|]. eapply Forall_impl; [|exact FL]. cbn. lia.
  - rewrite E. destruct (fill_holes_spec (Z.to_nat (n - (p - offset))) sg p (offset + n) ltac:(lia)) as (zs & -> & Cz). cbn [fst]. eexists. split; [reflexivity|].
    rewrite concat_app, C, Cz. cbn [concat app].
    rewrite (zeros_bytes (cont L) p (offset + n)) by (intros; apply T; lia). rewrite <- map_app, <- zrange_split by lia.
    assert (Er : zrange offset (Z.min (offset + size) (f_size f)) = zrange offset (offset + n)).
    { destruct (Z_le_dec (f_size f) offset); [rewrite !zrange_empty by lia; reflexivity|]. f_equal. lia. }
    rewrite Er. apply map_ext_in. intros i I. apply in_zrange in I. unfold cont, L, within.
    rewrite (zm_get_filter_key (fun k => in_erange (offset - offset mod rs) (Some (offset + n)) k)).
    replace (in_erange _ _ _) with true; [reflexivity|]. pose proof (base_mono offset i ltac:(lia)). pose proof (mod_range i). unfold in_erange. lia.
Qed.

(** ** Deallocation *)
Definition holed (offset : Z) (len : option Z) (i : Z) : bool := (offset <=? i) && match len with Some l => i <? offset + l | None => true end.
Definition lpos (len : option Z) : Prop := match len with Some l => 0 < l | None => True end.

Lemma dealloc_left_spec d size offset len : good d size -> 0 <= offset -> lpos len ->
  exists d' r, dealloc_left d offset len rs = Some (d', r) /\ good d' size /\ total (R d) = total (R d') + r /\
    (forall i, cont (R d') i = if negb (offset mod rs =? 0) && holed offset len i && (i <? offset - offset mod rs + rs) then 0 else cont (R d) i) /\
    (len = None -> offset mod rs <> 0 -> forall b, zm_get (offset - offset mod rs) (R d') = Some b -> zlen b <= offset mod rs).
Proof.
  intros (O & Ok & F) Lo Lp. unfold dealloc_left. cbv zeta. pose proof (mod_range offset) as Mr. pose proof (base_mod offset) as Bm.
  set (ro := offset mod rs) in *. set (k := offset - ro) in *. destruct (Z.eqb_spec ro 0) as [E0|E0]; cbn [negb andb].
  { exists d, 0. split; [reflexivity|]. split; [split; [exact O|]; split; [exact Ok|exact F]|]. split; [lia|]. split; [reflexivity|]. intros; lia. }
  destruct (ds_remove_ok d k O) as (d1 & -> & O1 & E1). set (n := match len with Some l => Z.min (rs - ro) l | None => rs - ro end).
  assert (Hn : 0 < n <= rs - ro) by (unfold n; destruct len; cbn in Lp; lia).
  assert (Hh : forall i, holed offset len i && (i <? k + rs) = (offset <=? i) && (i <? offset + n)).
  { intros i. unfold holed, n, k. destruct len; lia. }
  destruct (zm_get k (R d)) as [b|] eqn:Gk.
  - destruct (get_rec _ _ _ _ F Gk) as (K0 & _ & Lb & Lb2). cbn [fst snd] in *.
    set (br := if zlen b <? ro then (b, 0) else if zlen b - ro <=? n then (ztake ro b, zlen b - ro)
               else (ztake ro b ++ zrepeat 0 n ++ zdrop (ro + n) b, 0)).
    assert (Hbr : 0 < zlen (fst br) <= zlen b /\ zlen b = zlen (fst br) + snd br /\
      (forall x, byte_at (fst br) x = if (ro <=? x) && (x <? ro + n) then 0 else byte_at b x) /\ (len = None -> zlen (fst br) <= ro)).
    { unfold br. destruct (Z.ltb_spec (zlen b) ro) as [H1|H1]; [|destruct (Z.leb_spec (zlen b - ro) n) as [H2|H2]]; cbn [fst snd].
      - split; [lia|]. split; [lia|]. split; [|lia]. intros x. destruct ((ro <=? x) && (x <? ro + n)) eqn:E; [apply byte_out; lia|reflexivity].
      - rewrite zlen_take by lia. split; [lia|]. split; [lia|]. split; [|lia]. intros x. destruct (Z_lt_dec x ro).
        + replace ((ro <=? x) && (x <? ro + n)) with false by lia. apply byte_take. lia.
        + rewrite byte_out by (rewrite zlen_take by lia; lia). destruct ((ro <=? x) && (x <? ro + n)) eqn:E; [reflexivity|]. symmetry. apply byte_out. lia.
      - rewrite !zlen_app, zlen_take, zlen_repeat, zlen_drop by lia. split; [lia|]. split; [lia|]. split.
        + intros x. rewrite !byte_app, zlen_take, zlen_repeat, byte_zeros by lia. destruct (Z.ltb_spec x ro); [|destruct (Z.ltb_spec (x - ro) n)].
          * replace ((ro <=? x) && (x <? ro + n)) with false by lia. apply byte_take. lia.
          * now replace ((ro <=? x) && (x <? ro + n)) with true by lia.
          * replace ((ro <=? x) && (x <? ro + n)) with false by lia. rewrite byte_drop by lia. f_equal. lia.
        + intros ->. unfold n in H2. lia. }
    change (let '(b', r) := br in match ds_insert d1 k b' with Some (d2, _) => Some (d2, r) | None => None end) with
      (let '(b', r) := br in match ds_insert d1 k b' with Some (d2, _) => Some (d2, r) | None => None end).
    destruct br as [b' r]. cbn [fst snd] in Hbr. destruct Hbr as (H1 & H2 & H3 & H4).
    destruct (ds_insert_ok d1 k b' O1) as (d2 & -> & O2 & E2). rewrite E1, zm_set_del in E2 by exact Ok.
    exists d2, r. split; [reflexivity|]. rewrite E2. split; [|split; [|split]].
    + split; [exact O2|]. rewrite E2. split; [apply zm_ok_set; exact Ok|]. apply set_recs; [exact F|]. split; [exact K0|]. split; [exact Bm|]. cbn [fst snd]. lia.
    + rewrite total_set, Gk by exact Ok. lia.
    + intros i. rewrite cont_set by assumption. rewrite Hh. destruct ((k <=? i) && (i <? k + rs)) eqn:Ei.
      * rewrite H3, (cont_rec _ k i Bm), Gk by lia. replace ((offset <=? i) && (i <? offset + n)) with ((ro <=? i - k) && (i - k <? ro + n)) by lia. reflexivity.
      * replace ((offset <=? i) && (i <? offset + n)) with false by lia. reflexivity.
    + intros Hl _ b0. rewrite zm_get_set, Z.eqb_refl by exact Ok. intros [= <-]. auto.
  - exists d1, 0. split; [reflexivity|]. rewrite E1. split; [|split; [|split]].
    + split; [exact O1|]. rewrite E1. split; [apply zm_ok_del; exact Ok|]. apply del_recs. exact F.
    + rewrite total_del, Gk by exact Ok. lia.
    + intros i. rewrite cont_del by assumption. rewrite Hh. destruct ((k <=? i) && (i <? k + rs)) eqn:Ei.
      * rewrite (cont_rec _ k i Bm), Gk by lia. now destruct ((offset <=? i) && (i <? offset + n)).
      * replace ((offset <=? i) && (i <? offset + n)) with false by lia. reflexivity.
    + intros _ _ b. rewrite zm_get_del, Z.eqb_refl by exact Ok. discriminate.
Qed.

Lemma div_base i : i - i mod rs = rs * (i / rs).
Proof. pose proof (Z.div_mod i rs ltac:(lia)). lia. Qed.
Lemma div_lt_base i j : (i / rs <? j / rs) = (i - i mod rs <? j - j mod rs).
Proof. rewrite !div_base. destruct (Z.ltb_spec (i / rs) (j / rs)), (Z.ltb_spec (rs * (i / rs)) (rs * (j / rs))); try reflexivity; nia. Qed.

Lemma dealloc_right_spec d size offset len : good d size -> 0 <= offset -> lpos len ->
  exists d' r, dealloc_right d offset len rs = Some (d', r) /\ good d' size /\ total (R d) = total (R d') + r /\
    (forall i, cont (R d') i = if match len with None => false | Some l => let fin := offset + l in let fb := fin - fin mod rs in
        ((offset mod rs =? 0) || (offset - offset mod rs <? fb)) && (fb <=? i) && (i <? fin) end then 0 else cont (R d) i) /\
    (len = None -> R d' = R d).
Proof.
  intros (O & Ok & F) Lo Lp. unfold dealloc_right. destruct len as [l|].
  2:{ exists d, 0. split; [reflexivity|]. split; [split; [exact O|]; split; [exact Ok|exact F]|]. split; [lia|]. split; reflexivity. }
  cbv zeta. rewrite div_lt_base. pose proof (mod_range (offset + l)) as Mr. pose proof (base_mod (offset + l)) as Bm.
  set (n := (offset + l) mod rs) in *. set (k := offset + l - n) in *. set (c := (offset mod rs =? 0) || (offset - offset mod rs <? k)).
  assert (Triv : c && negb (n =? 0) = false -> forall i, c && (k <=? i) && (i <? offset + l) = false).
  { intros E i. destruct c; [|reflexivity]. cbn in *. assert (n = 0) by lia. unfold k. lia. }
  destruct (c && negb (n =? 0)) eqn:Ec.
  2:{ exists d, 0. split; [reflexivity|]. split; [split; [exact O|]; split; [exact Ok|exact F]|]. split; [lia|]. split; [|discriminate].
      intros i. now rewrite Triv. }
  destruct c; [|discriminate]. cbn [andb] in *. clear Triv. assert (N0 : n <> 0) by lia.
  destruct (ds_remove_ok d k O) as (d1 & -> & O1 & E1).
  assert (Hi : forall i, (k <=? i) && (i <? offset + l) = (k <=? i) && (i - k <? n)) by (intros; unfold k; lia).
  destruct (zm_get k (R d)) as [b|] eqn:Gk.
  - destruct (get_rec _ _ _ _ F Gk) as (K0 & _ & Lb & Lb2). cbn [fst snd] in *. destruct (Z.ltb_spec n (zlen b)) as [H|H].
    + destruct (ds_insert_ok d1 k (zrepeat 0 n ++ zdrop n b) O1) as (d2 & -> & O2 & E2). rewrite E1, zm_set_del in E2 by exact Ok.
      assert (Zl : zlen (zrepeat 0 n ++ zdrop n b) = zlen b) by (rewrite zlen_app, zlen_repeat, zlen_drop by lia; lia).
      exists d2, 0. split; [reflexivity|]. split; [|split; [|split; [|discriminate]]].
      * split; [exact O2|]. rewrite E2. split; [apply zm_ok_set; exact Ok|]. apply set_recs; [exact F|]. split; [exact K0|]. split; [exact Bm|]. cbn [fst snd]. lia.
      * rewrite E2, total_set, Gk by exact Ok. lia.
      * intros i. rewrite E2, cont_set by assumption. rewrite Hi. destruct ((k <=? i) && (i <? k + rs)) eqn:Ei.
        -- rewrite (cont_rec _ k i Bm), Gk by lia. rewrite byte_app, byte_zeros, zlen_repeat by lia. destruct (Z.ltb_spec (i - k) n).
           ++ now replace (k <=? i) with true by lia.
           ++ replace ((k <=? i) && false) with false by lia. rewrite byte_drop by lia. f_equal. lia.
        -- replace ((k <=? i) && (i - k <? n)) with false by lia. reflexivity.
    + exists d1, (zlen b). split; [reflexivity|]. split; [|split; [|split; [|discriminate]]].
      * split; [exact O1|]. rewrite E1. split; [apply zm_ok_del; exact Ok|]. apply del_recs. exact F.
      * rewrite E1, total_del, Gk by exact Ok. lia.
      * intros i. rewrite E1, cont_del by assumption. rewrite Hi. destruct ((k <=? i) && (i <? k + rs)) eqn:Ei.
        -- rewrite (cont_rec _ k i Bm), Gk by lia. destruct ((k <=? i) && (i - k <? n)) eqn:E; [reflexivity|]. symmetry. apply byte_out. lia.
        -- replace ((k <=? i) && (i - k <? n)) with false by lia. reflexivity.
  - exists d1, 0. split; [reflexivity|]. split; [|split; [|split; [|discriminate]]].
    + split; [exact O1|]. rewrite E1. split; [apply zm_ok_del; exact Ok|]. apply del_recs. exact F.
    + rewrite E1, total_del, Gk by exact Ok. lia.
    + intros i. rewrite E1, cont_del by assumption. rewrite Hi. destruct ((k <=? i) && (i <? k + rs)) eqn:Ei.
      * rewrite (cont_rec _ k i Bm), Gk by lia. now destruct ((k <=? i) && (i - k <? n)).
      * replace ((k <=? i) && (i - k <? n)) with false by lia. reflexivity.
Qed.

Lemma sum_within d lo hi : dsok d -> fold_right (fun p a => ext_len (snd p) + a) 0 (ds_range d lo hi) = total (within lo hi (R d)).
Proof.
  intros (_ & _ & _ & F1 & _). rewrite <- ds_range_R.
  assert (F : Forall (fun p => stored (d_blobs d) (snd p)) (ds_range d lo hi)).
  { apply Forall_forall. intros p I. apply filter_In in I. rewrite Forall_forall in F1. apply F1, I. }
  induction F as [|[k e] l S F IH]; [reflexivity|]. cbn [map fold_right total fst snd] in *. unfold total in IH. rewrite IH, (ext_len_res _ _ S). reflexivity.
Qed.
Lemma dealloc_full_spec d size offset len : good d size -> 0 <= offset ->
  let hi := match len with Some l => Some (Z.max ((offset + l) - (offset + l) mod rs) offset) | None => None end in
  exists d' r, dealloc_full d offset len rs = Some (d', r) /\ good d' size /\ total (R d) = total (R d') + r /\ R d' = cut offset hi (R d) /\
    (forall i, cont (R d') i = if in_erange offset hi (i - i mod rs) then 0 else cont (R d) i).
Proof.
  intros (O & Ok & F) Lo hi. unfold dealloc_full. cbv zeta. fold hi. destruct (ds_range_delete_ok d offset hi O) as (d' & -> & O' & E').
  eexists _, _. split; [reflexivity|]. split; [|split; [|split; [exact E'|]]].
  - split; [exact O'|]. rewrite E'. split; [apply zm_ok_filter; exact Ok|]. apply Forall_forall. intros p I. apply filter_In in I. rewrite Forall_forall in F. apply F, I.
  - rewrite E', sum_within by exact O. rewrite (total_filter (fun p => in_erange offset hi (fst p)) (R d)). unfold within, cut. lia.
  - intros i. rewrite E'. unfold cont, cut. rewrite (zm_get_filter_key (fun k => negb (in_erange offset hi k))). now destruct (in_erange offset hi (i - i mod rs)).
Qed.

Lemma do_deallocate_spec d size offset len : good d size -> 0 <= offset -> lpos len ->
  exists d' r, do_deallocate d offset len rs = Some (d', r) /\ good d' size /\ total (R d) = total (R d') + r /\
    (forall i, cont (R d') i = if holed offset len i then 0 else cont (R d) i) /\
    (len = None -> Forall (rec_ok offset) (R d')).
Proof.
  intros G Lo Lp. unfold do_deallocate. destruct (dealloc_left_spec d size offset len G Lo Lp) as (d1 & a & -> & G1 & T1 & C1 & S1).
  destruct (dealloc_right_spec d1 size offset len G1 Lo Lp) as (d2 & b & -> & G2 & T2 & C2 & S2).
  destruct (dealloc_full_spec d2 size offset len G2 Lo) as (d3 & c & -> & G3 & T3 & S3 & C3).
  eexists _, _. split; [reflexivity|]. split; [exact G3|]. split; [lia|]. split.
  - intros i. rewrite C3, C2, C1. clear - RS Lp Lo. pose proof (mod_range offset) as Mo. pose proof (mod_range i) as Mi.
    assert (Bo := base_mod offset). assert (Bi := base_mod i). set (ob := offset - offset mod rs) in *. set (ib := i - i mod rs) in *.
    assert (No : ib < ob \/ ib = ob \/ ob + rs <= ib).
    { destruct (Z.lt_trichotomy ib ob) as [H|[H|H]]; auto. right. right. apply next_rec; assumption. }
    assert (No2 : ib < ob -> ib + rs <= ob) by (intros; apply next_rec; assumption).
    destruct len as [l|]; cbn [lpos] in Lp; unfold holed, in_erange; cbv zeta.
    + pose proof (mod_range (offset + l)) as Mf. assert (Bf := base_mod (offset + l)). set (fb := offset + l - (offset + l) mod rs) in *.
      assert (Nf : ib < fb -> ib + rs <= fb) by (intros; apply next_rec; assumption).
      assert (Nf2 : fb < ib -> fb + rs <= ib) by (intros; apply next_rec; assumption).
      assert (Nf3 : ob < fb -> ob + rs <= fb) by (intros; apply next_rec; assumption).
      assert (Nf4 : fb < ob -> fb + rs <= ob) by (intros; apply next_rec; assumption).
      destruct ((offset <=? ib) && (ib <? Z.max fb offset)) eqn:E1.
      { replace ((offset <=? i) && (i <? offset + l)) with true by lia. reflexivity. }
      destruct (((offset mod rs =? 0) || (ob <? fb)) && (fb <=? i) && (i <? offset + l)) eqn:E2.
      { replace ((offset <=? i) && (i <? offset + l)) with true by lia. reflexivity. }
      destruct (negb (offset mod rs =? 0) && ((offset <=? i) && (i <? offset + l)) && (i <? ob + rs)) eqn:E3.
      { replace ((offset <=? i) && (i <? offset + l)) with true by lia. reflexivity. }
      replace ((offset <=? i) && (i <? offset + l)) with false by lia. reflexivity.
    + rewrite !andb_true_r. destruct (offset <=? ib) eqn:E1.
      { replace (offset <=? i) with true by lia. reflexivity. }
      destruct (negb (offset mod rs =? 0) && (offset <=? i) && (i <? ob + rs)) eqn:E3.
      { replace (offset <=? i) with true by lia. reflexivity. }
      replace (offset <=? i) with false by lia. reflexivity.
  - intros ->. specialize (S2 eq_refl). rewrite S3. unfold cut. rewrite S2. destruct G1 as (_ & Ok1 & F1). apply Forall_forall. intros [k x] I. apply filter_In in I.
    destruct I as [I Hk]. cbn [fst in_erange] in Hk. rewrite Forall_forall in F1. destruct (F1 _ I) as (A1 & A2 & A3 & A4). cbn [fst snd] in *.
    split; [exact A1|]. split; [exact A2|]. split; [exact A3|]. cbn [fst snd]. unfold in_erange in Hk. assert (Lk : k < offset) by lia.
    pose proof (mod_range offset) as Mo. pose proof (base_mod offset) as Bo.
    destruct (Z.lt_trichotomy k (offset - offset mod rs)) as [H|[H|H]].
    + pose proof (next_rec _ _ A2 Bo H). lia.
    + assert (N0 : offset mod rs <> 0) by lia. specialize (S1 eq_refl N0 x). rewrite <- H in S1. specialize (S1 (zm_in_get _ _ _ Ok1 I)). lia.
    + pose proof (next_rec _ _ Bo A2 H). lia.
Qed.

Lemma deallocate_spec f offset len : fgood f -> 0 <= offset -> 0 <= len -> exists f', deallocate rs f offset len = Some f' /\ fgood f' /\ f_size f' = f_size f /\
  forall i, i < f_size f -> cont (R (f_ds f')) i = if (offset <=? i) && (i <? offset + len) then 0 else cont (R (f_ds f)) i.
Proof.
  intros G Lo Ll. unfold deallocate. cbv zeta. unfold sat_sub at 1 2. destruct (Z.ltb_spec 0 (Z.min (Z.max 0 (f_size f - Z.min (f_size f) offset)) len)) as [H|H].
  - destruct G as (G & S0 & B).
    destruct (do_deallocate_spec (f_ds f) (f_size f) (Z.min (f_size f) offset) (Some (Z.min (Z.max 0 (f_size f - Z.min (f_size f) offset)) len)) G ltac:(lia) H)
      as (d & r & -> & G' & T & C & _). eexists. split; [reflexivity|]. split; [|split; [reflexivity|]].
    + split; [exact G'|]. split; [exact S0|]. cbn [f_bytes f_ds]. unfold sat_sub. pose proof (total_nonneg (R d)). lia.
    + intros i Hi. cbn [f_ds]. rewrite C. unfold holed. replace (_ && _) with ((offset <=? i) && (i <? offset + len)) by lia. reflexivity.
  - exists f. split; [reflexivity|]. split; [exact G|]. split; [reflexivity|]. intros i Hi. replace ((offset <=? i) && (i <? offset + len)) with false by lia. reflexivity.
Qed.

Lemma cont_past f i : fgood f -> f_size f <= i -> cont (R (f_ds f)) i = 0.
Proof.
  intros ((_ & _ & F) & _) L. unfold cont. destruct (zm_get (i - i mod rs) (R (f_ds f))) as [b|] eqn:Gk; [|reflexivity].
  destruct (get_rec _ _ _ _ F Gk) as (_ & _ & _ & H). cbn [fst snd] in H. apply byte_out. lia.
Qed.
Lemma set_size_spec f n : fgood f -> 0 <= n -> exists f', set_size rs f n = Some f' /\ fgood f' /\ f_size f' = n /\
  forall i, i < n -> cont (R (f_ds f')) i = cont (R (f_ds f)) i.
Proof.
  intros (G & S0 & B) Ln. unfold set_size. destruct (Z.ltb_spec n (f_size f)).
  - destruct (do_deallocate_spec (f_ds f) (f_size f) n None G Ln I) as (d & r & -> & G' & T & C & S). eexists. split; [reflexivity|]. split; [|split; [reflexivity|]].
    + split; [destruct G' as (A1&A2&A3); split; [exact A1|]; split; [exact A2|]; apply S; reflexivity|]. split; [exact Ln|]. cbn [f_bytes f_ds]. unfold sat_sub. pose proof (total_nonneg (R d)). lia.
    + intros i Hi. cbn [f_ds]. rewrite C. unfold holed. rewrite andb_true_r. replace (n <=? i) with false by lia. reflexivity.
  - eexists. split; [reflexivity|]. split; [|split; [reflexivity|reflexivity]].
    split; [destruct G as (A1&A2&A3); split; [exact A1|]; split; [exact A2|]; eapply recs_mono; [|exact A3]; cbn; lia|]. split; [exact Ln|].
    cbn [f_bytes f_ds]. unfold sat_sub. pose proof (total_nonneg (R (f_ds f))). lia.
Qed.

Lemma flush_spec f : fgood f -> fgood (File (ds_flush (f_ds f)) (f_size f) (f_bytes f)) /\ R (ds_flush (f_ds f)) = R (f_ds f).
Proof.
  intros ((O & Ok & F) & S0 & B). destruct (ds_flush_ok _ O) as [O' E]. split; [|exact E]. split; [|split; [exact S0|cbn; now rewrite E]].
  cbn [f_ds f_size]. split; [exact O'|]. rewrite E. split; [exact Ok|exact F].
Qed.

(** ** Seeking *)
Definition inside (es : list (Z * extent)) (i : Z) : Prop := exists k e, In (k, e) es /\ k <= i < k + ext_len e.
Lemma inside_cons k e es i : inside ((k, e) :: es) i <-> k <= i < k + ext_len e \/ inside es i.
Proof.
  split.
  - intros (k' & e' & [E|I] & H); [injection E as <- <-; auto|]. right. exists k', e'. auto.
  - intros [H|(k' & e' & I & H)]; [exists k, e; split; [now left|exact H]|exists k', e'; split; [now right|exact H]].
Qed.
Lemma inside_above es i k : Forall (fun p => k < fst p) es -> i <= k -> ~ inside es i.
Proof. intros F L (k' & e & I & H). rewrite Forall_forall in F. specialize (F _ I). cbn in F. lia. Qed.

Lemma lseek_data_loop : forall es o, zm_ok es -> Forall (fun p => 0 < ext_len (snd p)) es ->
  match lseek_loop SeekData o None es with
  | Some x => o <= x /\ inside es x /\ forall y, o <= y < x -> ~ inside es y
  | None => forall y, o <= y -> ~ inside es y
  end.
Proof.
  induction es as [|[k e] es IH]; intros o Ok F; cbn [lseek_loop].
  - intros y _ (k & e & [] & _).
  - inversion F as [|? ? He F']; subst. cbn [snd] in He. apply zm_ok_cons in Ok. destruct Ok as [Ok Fk].
    destruct (Z.leb_spec (k + ext_len e) o); [|destruct (Z.leb_spec k o)].
    + specialize (IH o Ok F'). destruct (lseek_loop SeekData o None es) as [x|].
      * destruct IH as (A & B & C). split; [exact A|]. split; [apply inside_cons; auto|]. intros y Hy. rewrite inside_cons. intros [Hk|Hk]; [lia|]. exact (C y Hy Hk).
      * intros y Hy. rewrite inside_cons. intros [Hk|Hk]; [lia|]. exact (IH y Hy Hk).
    + split; [lia|]. split; [apply inside_cons; left; lia|]. intros; lia.
    + split; [lia|]. split; [apply inside_cons; left; lia|]. intros y Hy. rewrite inside_cons. intros [Hk|Hk]; [lia|]. eapply inside_above; [exact Fk| |exact Hk]. lia.
Qed.
Lemma lseek_hole_loop : forall es o r0, zm_ok es -> Forall (fun p => 0 < ext_len (snd p)) es ->
  exists x, lseek_loop SeekHole o (Some r0) es = Some x /\
    ((forall y, o <= y -> ~ inside es y) /\ x = r0 \/
     (exists y, o <= y /\ inside es y) /\ o <= x /\ ~ inside es x /\ forall y, o <= y < x -> inside es y).
Proof.
  induction es as [|[k e] es IH]; intros o r0 Ok F; cbn [lseek_loop].
  - exists r0. split; [reflexivity|]. left. split; [|reflexivity]. intros y _ (k & e & [] & _).
  - inversion F as [|? ? He F']; subst. cbn [snd] in He. apply zm_ok_cons in Ok. destruct Ok as [Ok Fk].
    destruct (Z.leb_spec (k + ext_len e) o); [|destruct (Z.leb_spec k o)].
    + destruct (IH o r0 Ok F') as (x & -> & [[A ->]|((y & Y1 & Y2) & B & C & D)]).
      * exists r0. split; [reflexivity|]. left. split; [|reflexivity]. intros y Hy. rewrite inside_cons. intros [Hk|Hk]; [lia|]. exact (A y Hy Hk).
      * exists x. split; [reflexivity|]. right. split; [exists y; rewrite inside_cons; auto|]. split; [exact B|]. split; [rewrite inside_cons; intros [Hk|Hk]; [lia|auto]|].
        intros z Hz. rewrite inside_cons. auto.
    + destruct (IH (k + ext_len e) (k + ext_len e) Ok F') as (x & -> & [[A ->]|((y & Y1 & Y2) & B & C & D)]).
      * exists (k + ext_len e). split; [reflexivity|]. right. split; [exists o; rewrite inside_cons; split; [lia|left; lia]|]. split; [lia|].
        split; [rewrite inside_cons; intros [Hk|Hk]; [lia|]; eapply A; [|exact Hk]; lia|]. intros z Hz. rewrite inside_cons. left. lia.
      * exists x. split; [reflexivity|]. right. split; [exists o; rewrite inside_cons; split; [lia|left; lia]|]. split; [lia|].
        split; [rewrite inside_cons; intros [Hk|Hk]; [lia|auto]|]. intros z Hz. rewrite inside_cons. destruct (Z_lt_dec z (k + ext_len e)); [left; lia|]. right. apply D. lia.
    + exists o. split; [reflexivity|]. right. split; [exists k; rewrite inside_cons; split; [lia|left; lia]|]. split; [lia|].
      split; [rewrite inside_cons; intros [Hk|Hk]; [lia|]; eapply inside_above; [exact Fk| |exact Hk]; lia|]. intros; lia.
Qed.

Lemma ext_facts f : fgood f -> Forall (fun p => 0 <= fst p /\ fst p mod rs = 0 /\ 0 < ext_len (snd p) <= rs /\ fst p + ext_len (snd p) <= f_size f) (d_ext (f_ds f)).
Proof.
  intros (((_ & _ & _ & F1 & _) & _ & F) & _). unfold R in F. rewrite Forall_map in F. rewrite Forall_forall in *. intros p I.
  specialize (F p I). specialize (F1 p I). destruct F as (A & B & C & D). cbn [fst snd] in *. rewrite (ext_len_res _ _ F1). auto.
Qed.
Lemma inside_range f o y : fgood f -> o <= y -> (inside (ds_range (f_ds f) (o - o mod rs) None) y <-> inside (d_ext (f_ds f)) y).
Proof.
  intros G L. split; intros (k & e & I & H).
  - apply filter_In in I. exists k, e. split; [apply I|exact H].
  - exists k, e. split; [|exact H]. apply filter_In. split; [exact I|]. cbn [fst]. unfold in_erange. rewrite andb_true_r.
    pose proof (ext_facts f G) as F. rewrite Forall_forall in F. specialize (F _ I). cbn [fst snd] in F. destruct F as (_ & K & E & _).
    pose proof (mod_range o). apply Z.leb_le. destruct (Z_le_dec (o - o mod rs) k) as [|N]; [assumption|]. pose proof (next_rec k (o - o mod rs) K (base_mod o) ltac:(lia)). lia.
Qed.
Lemma cont_inside f i : fgood f -> 0 <= i -> cont (R (f_ds f)) i <> 0 -> inside (d_ext (f_ds f)) i.
Proof.
  intros G Li H. pose proof G as ((( _ & _ & _ & F1 & _) & _ & _) & _). unfold cont, R in H. rewrite (map_zm_get (res (d_blobs (f_ds f)))) in H.
  destruct (zm_get (i - i mod rs) (d_ext (f_ds f))) as [e|] eqn:E; [|congruence]. apply zm_get_in in E.
  exists (i - i mod rs), e. split; [exact E|]. rewrite Forall_forall in F1. specialize (F1 _ E). cbn [snd] in F1. rewrite (ext_len_res _ _ F1).
  pose proof (mod_range i). destruct (Z_lt_dec (i mod rs) (zlen (res (d_blobs (f_ds f)) e))); [lia|]. rewrite byte_out in H by lia. congruence.
Qed.

End Contents.
