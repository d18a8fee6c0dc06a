(** The invariant of a pool: each of its clusters is in a state that it can reach on its own. *)
From Verif Require Import Common ZMap FSM_Model FSM_Spec FSM_Inv FSM_Proofs FSM_Props Float_Model Pool_Model Pool_Spec Pool_Float.
From Coq Require Import Permutation Reals Lra.
From Flocq Require Import Core BinarySingleNaN.
Open Scope Z_scope.

Lemma upd_nth_error {A} (l : list A) : forall i x j,
  nth_error (list_upd l i x) j = if (j =? i)%nat then (match nth_error l i with Some _ => Some x | None => None end) else nth_error l j.
Proof.
  induction l as [|a l IH]; intros i x j; cbn [list_upd].
  - destruct i, j; cbn [nth_error Nat.eqb]; try reflexivity. now destruct (j =? i)%nat.
  - destruct i as [|i], j as [|j]; cbn [list_upd nth_error]; try reflexivity. rewrite IH. reflexivity.
Qed.

(** [at_cluster] *)
Lemma at_app {A} i (l1 l2 : list (nat * A)) : at_cluster i (l1 ++ l2) = at_cluster i l1 ++ at_cluster i l2.
Proof. unfold at_cluster. now rewrite filter_app, map_app. Qed.
Lemma at_cons {A} i x (l : list (nat * A)) : at_cluster i (x :: l) = if (fst x =? i)%nat then snd x :: at_cluster i l else at_cluster i l.
Proof. unfold at_cluster. cbn [filter]. now destruct (fst x =? i)%nat. Qed.
Lemma at_pair {A} i j (o : list A) : at_cluster i (map (pair j) o) = if (j =? i)%nat then o else [].
Proof.
  induction o as [|x o IH]; [now destruct (j =? i)%nat|]. cbn [map]. rewrite at_cons, IH. cbn [fst snd]. now destruct (j =? i)%nat.
Qed.
Lemma at_perm {A} i (l l' : list (nat * A)) : Permutation l l' -> Permutation (at_cluster i l) (at_cluster i l').
Proof.
  induction 1 as [|x l l' _ IH|x y l|l1 l2 l3 _ IH1 _ IH2].
  - constructor.
  - rewrite !at_cons. destruct (fst x =? i)%nat; [now constructor|exact IH].
  - rewrite !at_cons. destruct (fst x =? i)%nat, (fst y =? i)%nat; try reflexivity. constructor.
  - eapply Permutation_trans; eauto.
Qed.
Lemma at_in {A} i (l : list (nat * A)) e : In e (at_cluster i l) <-> In (i, e) l.
Proof.
  unfold at_cluster. rewrite in_map_iff. split.
  - intros ((j & x) & <- & H). apply filter_In in H. destruct H as (H & E). cbn [fst] in E. apply Nat.eqb_eq in E. now subst.
  - intros H. exists (i, e). split; [reflexivity|]. apply filter_In. split; [exact H|]. apply Nat.eqb_refl.
Qed.

Lemma drop_perm {A} (l : list A) : forall k x, nth_error l k = Some x -> Permutation l (x :: drop_nth k l).
Proof.
  induction l as [|a l IH]; intros [|k] x E; try discriminate; cbn [nth_error drop_nth] in *.
  - injection E as ->. reflexivity.
  - rewrite (IH k x E) at 1. constructor.
Qed.
Lemma pext_eqb_eq a b : pext_eqb a b = true <-> a = b.
Proof.
  unfold pext_eqb. rewrite andb_true_iff, Nat.eqb_eq, extent_eqb_eq. destruct a, b; cbn [fst snd]. split; [intros (-> & ->); reflexivity|intros H; now injection H].
Qed.
Lemma remove_perm x l : In x l -> Permutation l (x :: remove_ext x l).
Proof.
  induction l as [|y l IH]; [contradiction|]. intros H. cbn [remove_ext]. destruct (pext_eqb x y) eqn:E.
  - apply pext_eqb_eq in E. now subst.
  - destruct H as [->|H]; [rewrite (proj2 (pext_eqb_eq x x) eq_refl) in E; discriminate|]. rewrite (IH H) at 1. constructor.
Qed.
Lemma remove_one_perm e l : In e l -> Permutation l (e :: remove_one e l).
Proof.
  induction l as [|y l IH]; [contradiction|]. intros H. cbn [remove_one]. destruct (extent_eqb e y) eqn:E.
  - apply extent_eqb_eq in E. now subst.
  - destruct H as [->|H]; [rewrite (proj2 (extent_eqb_eq e e) eq_refl) in E; discriminate|]. rewrite (IH H) at 1. constructor.
Qed.
Lemma sum_len_perm l l' : Permutation l l' -> sum_len l = sum_len l'.
Proof. induction 1; unfold sum_len in *; cbn [fold_right] in *; lia. Qed.
Lemma blocks_perm l l' : Permutation l l' -> blocks l = blocks l'.
Proof. induction 1; unfold blocks in *; cbn [fold_right] in *; lia. Qed.
Lemma blocks_app l l' : blocks (l ++ l') = blocks l + blocks l'.
Proof. induction l as [|x l IH]; [reflexivity|]. unfold blocks in *. cbn [app fold_right]. lia. Qed.

(** [each] *)
Section Each.
Context (k : vdev -> cluster -> option (cluster * list vop)).
Lemma each_spec gs cs : forall i, length cs = length gs ->
  (forall j g c, nth_error gs j = Some g -> nth_error cs j = Some c -> k (cg_v g) c <> None) ->
  exists cs' o, each i k gs cs = Some (cs', o) /\ length cs' = length gs /\
    (forall j g c, nth_error gs j = Some g -> nth_error cs j = Some c ->
       exists c' o', k (cg_v g) c = Some (c', o') /\ nth_error cs' j = Some c' /\ at_cluster (i + j) o = o') /\
    (forall j, (j < i)%nat -> at_cluster j o = []).
Proof.
  revert cs. induction gs as [|g gs IH]; intros [|c cs] i L H; try discriminate L.
  - exists [], []. repeat split. intros j g c E. now destruct j.
  - cbn [each]. pose proof (H O g c eq_refl eq_refl) as N. destruct (k (cg_v g) c) as [(c' & o1)|] eqn:K; [|contradiction]. cbn [obind].
    destruct (IH cs (S i)) as (cs' & o2 & E & L' & S1 & S2).
    + cbn in L. lia.
    + intros j g' c0 E1 E2. apply (H (S j) g' c0); assumption.
    + rewrite E. cbn [obind]. exists (c' :: cs'), (map (pair i) o1 ++ o2). split; [reflexivity|]. split; [cbn; lia|]. split.
      * intros [|j] g' c0 E1 E2; cbn [nth_error] in *.
        -- injection E1 as <-. injection E2 as <-. exists c', o1. split; [exact K|]. split; [reflexivity|].
           rewrite at_app, at_pair. replace (i + 0)%nat with i by lia. rewrite Nat.eqb_refl, S2 by lia. apply app_nil_r.
        -- destruct (S1 j g' c0 E1 E2) as (c'' & o' & Q1 & Q2 & Q3). exists c'', o'. split; [exact Q1|]. split; [exact Q2|].
           rewrite at_app, at_pair. assert (X : (i =? i + S j)%nat = false) by (apply Nat.eqb_neq; lia). rewrite X. cbn [app].
           replace (i + S j)%nat with (S i + j)%nat by lia. exact Q3.
      * intros j Hj. rewrite at_app, at_pair, S2 by lia. assert (X : (i =? j)%nat = false) by (apply Nat.eqb_neq; lia). now rewrite X.
Qed.
End Each.

Definition depth_of (w : world) (i : nat) : Z := zlen (at_cluster i (w_fly w)) + zlen (filter (Nat.eqb i) (w_reads w)).

Section Inv.
Context (gs : list cgeo) (PG : pgeometry gs).

Record PInv (w : world) : Prop := {
  pi_len : length (p_cl (w_p w)) = length gs;
  pi_dlen : length (p_depth (w_p w)) = length gs;
  pi_cl : forall i g c, nth_error gs i = Some g -> nth_error (p_cl (w_p w)) i = Some c ->
     exists live cl, reach (cg_v g) c live cl (at_cluster i (w_tr w)) /\ Permutation live (at_cluster i (written w)) /\
       (w_clean w = true -> cl = true);
  pi_range : forall x, In x (written w) -> (fst x < length gs)%nat;
  pi_depth : forall i, (i < length gs)%nat -> nth_error (p_depth (w_p w)) i = Some (depth_of w i mod 2^32);
  pi_used : p_used (w_p w) = (blocks (w_held w) + blocks (w_lost0 w)) mod 2^64
}.

Lemma nth_in_gs i g : nth_error gs i = Some g -> In g gs. Proof. apply nth_error_In. Qed.
Lemma nth_lt i : (i < length gs)%nat <-> exists g, nth_error gs i = Some g.
Proof. rewrite <- nth_error_Some. destruct (nth_error gs i); split; intros; try congruence; eauto. destruct H; discriminate. Qed.

Lemma pinv_init : PInv (World (pool_create gs) [] [] [] [] [] false []).
Proof.
  split; cbn.
  - apply map_length.
  - apply map_length.
  - intros i g c E1 E2. rewrite nth_error_map, E1 in E2. injection E2 as <-. exists [], false. split; [constructor|]. split; [constructor|discriminate].
  - contradiction.
  - intros i H. apply nth_lt in H. destruct H as (g & E). rewrite nth_error_map, E. reflexivity.
  - reflexivity.
Qed.

(** What a step of one cluster does *)
Lemma one_cluster w i g c op c' r o live cl : PInv w -> nth_error gs i = Some g -> nth_error (p_cl (w_p w)) i = Some c ->
  reach (cg_v g) c live cl (at_cluster i (w_tr w)) -> legal live cl op -> step (cg_v g) c op = Some (c', r, o) ->
  reach (cg_v g) c' (live_next live op r) (clean_next op) (at_cluster i (w_tr w ++ map (pair i) o)).
Proof.
  intros I E1 E2 R L S. rewrite at_app, at_pair, Nat.eqb_refl. eapply reach_step; eassumption.
Qed.

Lemma bump_nth d i n j : nth_error (bump d i n) j = if (j =? i)%nat then option_map (fun x => add32 x n) (nth_error d i) else nth_error d j.
Proof.
  unfold bump. destruct (nth_error d i) eqn:E.
  - rewrite upd_nth_error, E. reflexivity.
  - cbn [option_map]. destruct (Nat.eqb_spec j i) as [->|]; [exact E|reflexivity].
Qed.
Lemma bump_length d i n : length (bump d i n) = length d.
Proof. unfold bump. destruct (nth_error d i); [apply list_upd_length|reflexivity]. Qed.

Lemma drop_at {A} i k (l : list (nat * A)) x : nth_error l k = Some x ->
  zlen (at_cluster i l) = zlen (at_cluster i (drop_nth k l)) + (if (fst x =? i)%nat then 1 else 0).
Proof.
  intros E. pose proof (at_perm i _ _ (drop_perm l k x E)) as P. apply Permutation_length in P. rewrite at_cons in P. unfold zlen.
  destruct (fst x =? i)%nat; cbn [length] in P; lia.
Qed.
Lemma drop_count i k l x : nth_error l k = Some x ->
  zlen (filter (Nat.eqb i) l) = zlen (filter (Nat.eqb i) (drop_nth k l)) + (if (i =? x)%nat then 1 else 0).
Proof.
  revert k. induction l as [|a l IH]; intros [|k] E; try discriminate; cbn [nth_error drop_nth filter] in *.
  - injection E as ->. destruct (i =? x)%nat; unfold zlen; cbn [length]; lia.
  - specialize (IH k E). destruct (i =? a)%nat; unfold zlen in *; cbn [length]; lia.
Qed.

Lemma add32_mod a n : add32 (a mod 2^32) n = (a + n) mod 2^32.
Proof. unfold add32. now rewrite Zplus_mod_idemp_l. Qed.
Lemma add_used_mod a n : add_used (a mod 2^64) n = (a + n) mod 2^64.
Proof. unfold add_used. now rewrite Zplus_mod_idemp_l. Qed.

Lemma depth_shift (d : list Z) i n (f f' : nat -> Z) :
  (forall j, (j < length gs)%nat -> nth_error d j = Some (f j mod 2^32)) ->
  (forall j, f' j = f j + (if (j =? i)%nat then n else 0)) ->
  forall j, (j < length gs)%nat -> nth_error (bump d i n) j = Some (f' j mod 2^32).
Proof.
  intros H F j Hj. rewrite bump_nth, F. destruct (Nat.eqb_spec j i) as [->|].
  - rewrite (H i Hj). cbn [option_map]. now rewrite add32_mod.
  - rewrite H by exact Hj. f_equal. f_equal. lia.
Qed.

Lemma reach_sane v c live cl tr : geometry v -> reach v c live cl tr -> 0 <= sum_len live /\ sum_len live <= alloc_space c <= capacity v.
Proof.
  intros G R. pose proof (reach_inv v G _ _ _ _ R) as I. pose proof (live_pos v live (i_live _ _ _ _ _ I)) as LP.
  split; [now apply sum_len_nonneg|]. destruct (C14_allocated_is_exact v c live cl tr G R) as (d & c' & o & _ & _ & _ & H). exact H.
Qed.

Lemma step_runs v c live cl tr op : geometry v -> reach v c live cl tr -> legal live cl op -> exists c' r o, step v c op = Some (c', r, o).
Proof.
  intros G R L. pose proof (C13_never_panics v c live cl tr op G R L) as N. destruct (step v c op) as [((c' & r) & o)|]; [eauto|contradiction].
Qed.

Lemma cluster_at w i : PInv w -> (i < length gs)%nat -> exists g c, nth_error gs i = Some g /\ nth_error (p_cl (w_p w)) i = Some c.
Proof.
  intros I H. apply nth_lt in H. destruct H as (g & E). exists g.
  destruct (nth_error (p_cl (w_p w)) i) as [c|] eqn:F; [eauto|exfalso].
  apply nth_error_None in F. rewrite (pi_len w I) in F. apply nth_error_None in F. congruence.
Qed.

Lemma alloc_range w i g c : PInv w -> nth_error gs i = Some g -> nth_error (p_cl (w_p w)) i = Some c -> 0 <= alloc_space c <= cg_size g.
Proof.
  intros I E1 E2. destruct (pi_cl w I i g c E1 E2) as (live & cl & R & _).
  pose proof (reach_sane _ _ _ _ _ (pg_v gs PG g (nth_in_gs i g E1)) R). pose proof (pg_size gs PG g (nth_in_gs i g E1)). lia.
Qed.

(** The choice of a cluster never panics, and takes the one with the least weight. *)
Lemma choice w : PInv w -> exists i g c d,
  choose (weights gs (p_cl (w_p w)) (p_depth (w_p w))) = Some i /\ nth_error gs i = Some g /\ nth_error (p_cl (w_p w)) i = Some c /\
  nth_error (p_depth (w_p w)) i = Some d /\
  forall j g' c' d', nth_error gs j = Some g' -> nth_error (p_cl (w_p w)) j = Some c' -> nth_error (p_depth (w_p w)) j = Some d' ->
    (B2R (weight g c d) <= B2R (weight g' c' d'))%R.
Proof.
  intros I. set (ws := weights gs (p_cl (w_p w)) (p_depth (w_p w))).
  assert (N : ws <> []).
  { intros E. assert (L0 : (0 < length gs)%nat) by (pose proof (pg_some gs PG); destruct gs; [contradiction|cbn; lia]).
    destruct (cluster_at w 0 I L0) as (g & c & E1 & E2). pose proof (pi_depth w I _ L0) as E3.
    pose proof (weights_nth gs (p_cl (w_p w)) (p_depth (w_p w)) 0) as X. fold ws in X. rewrite E, E1, E2, E3 in X. discriminate X. }
  assert (F : forall x, In x ws -> is_finite x = true).
  { intros x Hx. apply In_nth_error in Hx. destruct Hx as (j & E). unfold ws in E. rewrite weights_nth in E.
    destruct (nth_error gs j) as [g|] eqn:E1; [|discriminate]. destruct (nth_error (p_cl (w_p w)) j) as [c|] eqn:E2; [|discriminate].
    destruct (nth_error (p_depth (w_p w)) j) as [d|] eqn:E3; [|discriminate]. injection E as <-.
    rewrite (pi_depth w I j) in E3 by (apply nth_lt; eauto). injection E3 as <-.
    pose proof (pg_size gs PG g (nth_in_gs j g E1)). pose proof (pg_opt gs PG g (nth_in_gs j g E1)).
    apply weight_real; [now apply (alloc_range w j)|tauto|lia|apply Z.mod_pos_bound; lia]. }
  destruct (choose_spec ws N F) as (i & x & E & Nx & M). unfold ws in Nx. rewrite weights_nth in Nx.
  destruct (nth_error gs i) as [g|] eqn:E1; [|discriminate]. destruct (nth_error (p_cl (w_p w)) i) as [c|] eqn:E2; [|discriminate].
  destruct (nth_error (p_depth (w_p w)) i) as [d|] eqn:E3; [|discriminate]. injection Nx as <-.
  exists i, g, c, d. split; [exact E|]. split; [exact E1|]. split; [exact E2|]. split; [exact E3|].
  intros j g' c' d' Q1 Q2 Q3. apply M. apply (nth_error_In _ j). unfold ws. rewrite weights_nth, Q1, Q2, Q3. reflexivity.
Qed.

Lemma perm_front {A} (x : A) l1 l2 : Permutation (l1 ++ x :: l2) (x :: l1 ++ l2).
Proof. symmetry. apply Permutation_middle. Qed.

Lemma each_inv w (op : cop) k p' w' :
  PInv w ->
  (forall v c live cl tr, geometry v -> reach v c live cl tr -> legal live cl op -> exists c' o, step v c op = Some (c', RUnit, o) /\ k v c = Some (c', o)) ->
  (forall live cl, (w_clean w = true -> cl = true) -> legal live cl op) ->
  (forall live r, live_next live op r = live) ->
  forall (E : exists cs o, each 0 k gs (p_cl (w_p w)) = Some (cs, o) /\ p_cl p' = cs /\ w_tr w' = w_tr w ++ o),
  w_p w' = p' -> (w_clean w' = true -> clean_next op = true) -> Permutation (written w') (written w) ->
  length (p_cl p') = length gs /\
  (forall i g c, nth_error gs i = Some g -> nth_error (p_cl p') i = Some c ->
     exists live cl, reach (cg_v g) c live cl (at_cluster i (w_tr w')) /\ Permutation live (at_cluster i (written w')) /\
       (w_clean w' = true -> cl = true)).
Proof.
  intros I K L LN (cs & o & E & Ec & Et) Ep Ecl PW.
  destruct (each_spec k gs (p_cl (w_p w)) 0 (pi_len w I)) as (cs' & o' & E' & L' & S1 & _).
  { intros j g c E1 E2. destruct (pi_cl w I j g c E1 E2) as (live & cl & R & P & C).
    destruct (K (cg_v g) c live cl _ (pg_v gs PG g (nth_in_gs j g E1)) R (L live cl C)) as (c' & q & _ & Q). congruence. }
  rewrite E in E'. injection E' as <- <-. rewrite Ec. split; [exact L'|].
  intros i g c' E1 E2. destruct (cluster_at w i I) as (g' & c & F1 & F2); [apply nth_lt; eauto|]. rewrite E1 in F1. injection F1 as <-.
  destruct (S1 i g c E1 F2) as (c'' & q & Q1 & Q2 & Q3). rewrite Q2 in E2. injection E2 as ->.
  destruct (pi_cl w I i g c E1 F2) as (live & cl & R & P & C).
  destruct (K (cg_v g) c live cl _ (pg_v gs PG g (nth_in_gs i g E1)) R (L live cl C)) as (c2 & q2 & T1 & T2). rewrite Q1 in T2. injection T2 as <- <-.
  exists live, (clean_next op). split; [|split; [|exact Ecl]].
  - rewrite Et, at_app. cbn [Nat.add] in Q3. rewrite Q3. rewrite <- (LN live RUnit). eapply reach_step; [exact R|now apply L|exact T1].
  - etransitivity; [exact P|]. apply at_perm. now symmetry.
Qed.

Lemma range_perm l l' : Permutation l l' -> (forall x : pext, In x l -> (fst x < length gs)%nat) -> forall x, In x l' -> (fst x < length gs)%nat.
Proof. intros P H x Hx. apply H. eapply Permutation_in; [symmetry; exact P|exact Hx]. Qed.

Lemma omap_used cs (f : nat -> Z) : forall n, (forall j c, nth_error cs j = Some c -> used c = Some (f (n + j)%nat)) ->
  omap used cs = Some (map f (seq n (length cs))).
Proof.
  induction cs as [|c cs IH]; intros n H; [reflexivity|]. cbn [omap length seq map].
  pose proof (H O c eq_refl) as E. replace (n + 0)%nat with n in E by lia. rewrite E. cbn [obind].
  rewrite (IH (S n)); [reflexivity|]. intros j c' E'. replace (S n + j)%nat with (n + S j)%nat by lia. now apply H.
Qed.

Lemma fold_used l : forall a, fold_left add_used l (a mod 2^64) = (a + fold_right Z.add 0 l) mod 2^64.
Proof.
  induction l as [|x l IH]; intros a; cbn [fold_left fold_right]; [f_equal; lia|]. rewrite add_used_mod, IH. f_equal. lia.
Qed.

Lemma blocks_split : forall n l, (forall x, In x l -> (fst x < n)%nat) ->
  fold_right Z.add 0 (map (fun i => sum_len (at_cluster i l)) (seq 0 n)) = blocks l.
Proof.
  intros n l. induction l as [|x l IH]; intros H.
  - assert (G : forall m k, fold_right Z.add 0 (map (fun i => sum_len (@at_cluster extent i [])) (seq k m)) = 0).
    { induction m as [|m IHm]; intros k; [reflexivity|]. cbn [seq map fold_right]. rewrite IHm. reflexivity. }
    apply G.
  - specialize (IH (fun y Hy => H y (or_intror Hy))). pose proof (H x (or_introl eq_refl)) as Hx.
    assert (G : forall m k, fold_right Z.add 0 (map (fun i => sum_len (at_cluster i (x :: l))) (seq k m)) =
                fold_right Z.add 0 (map (fun i => sum_len (at_cluster i l)) (seq k m)) + (if (k <=? fst x)%nat && (fst x <? k + m)%nat then snd (snd x) else 0)).
    { induction m as [|m IHm]; intros k.
      - cbn [seq map fold_right]. destruct (Nat.leb_spec k (fst x)), (Nat.ltb_spec (fst x) (k + 0)); cbn [andb]; lia.
      - cbn [seq map fold_right]. rewrite IHm, at_cons. destruct (Nat.eqb_spec (fst x) k) as [E|E].
        + change (sum_len (snd x :: at_cluster k l)) with (snd (snd x) + sum_len (at_cluster k l)).
          destruct (Nat.leb_spec (S k) (fst x)), (Nat.ltb_spec (fst x) (S k + m)), (Nat.leb_spec k (fst x)), (Nat.ltb_spec (fst x) (k + S m)); cbn [andb]; lia.
        + destruct (Nat.leb_spec (S k) (fst x)), (Nat.ltb_spec (fst x) (S k + m)), (Nat.leb_spec k (fst x)), (Nat.ltb_spec (fst x) (k + S m)); cbn [andb]; lia. }
    rewrite G, IH. destruct (Nat.leb_spec 0 (fst x)), (Nat.ltb_spec (fst x) (0 + n)); cbn [andb]; try lia.
    change (blocks (x :: l)) with (snd (snd x) + blocks l). lia.
Qed.

Lemma free_step v lba len c : forall c', free v lba len c = Some c' -> step v c (CFree lba len) = Some (c', RUnit, []).
Proof. intros c' E. cbn [step]. now rewrite E. Qed.

(** A legal event never panics, and keeps the invariant. *)
Lemma pstep_inv w e : PInv w -> plegal gs w e -> exists w' r, pstep gs w e = Some (w', r) /\ PInv w'.
Proof.
  intros I L. destruct w as [p fly held lost lost0 reads clean tr]. pose proof I as J. destruct J as [J1 J2 J3 J4 J5 J6].
  unfold written in J3, J4. cbn [w_p w_fly w_held w_lost w_lost0 w_reads w_clean w_tr] in *.
  destruct e as [space txg|k ok|i|k|x| | |]; cbn [plegal pstep w_p w_fly w_held w_lost w_lost0 w_reads w_clean w_tr] in *.
  - (* write *)
    destruct (choice _ I) as (i & g & c & d & E & E1 & E2 & E3 & _). cbn [w_p] in *. unfold pool_write. rewrite E. cbn [obind]. rewrite E1. cbn [obind]. rewrite E2. cbn [obind].
    destruct (J3 i g c E1 E2) as (live & cl & R & P & C).
    pose proof (step_runs (cg_v g) c live cl _ (CWrite space txg) (pg_v gs PG g (nth_in_gs i g E1)) R L) as (c' & r & o & S).
    pose proof S as S'. cbn [step] in S'. destruct (write (cg_v g) space txg c) as [((c1 & r1) & o1)|]; [|discriminate]. cbn [obind] in *. injection S' as -> <- ->.
    pose proof (one_cluster _ i g c (CWrite space txg) c' _ o live cl I E1 E2 R L S) as R'.
    assert (Li : (i < length gs)%nat) by (apply nth_lt; eauto).
    assert (CL : forall cs' fly', cs' = list_upd (p_cl p) i c' ->
              Permutation (live_next live (CWrite space txg) (RWrite r1)) (at_cluster i (fly' ++ held ++ lost ++ lost0)) ->
              (forall j, j <> i -> at_cluster j fly' = at_cluster j fly) ->
              forall j g0 c0, nth_error gs j = Some g0 -> nth_error cs' j = Some c0 ->
              exists live cl, reach (cg_v g0) c0 live cl (at_cluster j (tr ++ map (pair i) o)) /\ Permutation live (at_cluster j (fly' ++ held ++ lost ++ lost0)) /\ (false = true -> cl = true)).
    { intros cs' fly' -> PP FJ j g0 c0 F1 F2. rewrite upd_nth_error in F2. destruct (Nat.eqb_spec j i) as [->|Nj].
      - rewrite E2 in F2. injection F2 as <-. rewrite E1 in F1. injection F1 as <-. exists (live_next live (CWrite space txg) (RWrite r1)), false. split; [exact R'|]. split; [exact PP|discriminate].
      - destruct (J3 j g0 c0 F1 F2) as (lv & b & Rj & Pj & Cj). exists lv, b. split; [|split; [|discriminate]].
        + rewrite at_app, at_pair. assert (X : (i =? j)%nat = false) by (apply Nat.eqb_neq; lia). rewrite X, app_nil_r. exact Rj.
        + rewrite (at_app j fly'), (FJ j Nj), <- (at_app j fly). exact Pj. }
    destruct r1 as [lba|]; eexists _, _; (split; [reflexivity|]).
    + split; unfold written; cbn [w_p w_fly w_held w_lost w_lost0 w_reads w_clean w_tr p_cl p_used p_depth].
      * now rewrite list_upd_length.
      * now rewrite bump_length.
      * apply (CL _ ((i, (lba, space)) :: fly)); [reflexivity| |].
        -- cbn [live_next]. etransitivity; [apply perm_skip; exact P|]. unfold at_cluster. cbn [app filter fst]. rewrite Nat.eqb_refl. reflexivity.
        -- intros j Nj. unfold at_cluster. cbn [filter fst]. destruct (Nat.eqb_spec i j); [lia|reflexivity].
      * intros x [<-|Hx]; [exact Li|now apply J4].
      * apply (depth_shift _ i 1 _ _ J5). intros j. unfold depth_of; cbn [w_fly w_reads]. unfold at_cluster. cbn [filter fst].
        rewrite (Nat.eqb_sym i j). destruct (Nat.eqb_spec j i); unfold zlen; cbn [map length]; lia.
      * exact J6.
    + split; unfold written; cbn [w_p w_fly w_held w_lost w_lost0 w_reads w_clean w_tr p_cl p_used p_depth]; auto.
      * now rewrite list_upd_length.
      * apply (CL _ fly); [reflexivity|exact P|reflexivity].
  - (* the end of a write *)
    destruct (nth_error fly k) as [x|] eqn:E; [|apply nth_error_None in E; lia]. cbn [obind]. eexists _, _. split; [reflexivity|].
    pose proof (drop_perm fly k x E) as DP.
    assert (PW : Permutation (fly ++ held ++ lost ++ lost0) (drop_nth k fly ++ (if ok then x :: held else held) ++ (if ok then lost else x :: lost) ++ lost0)).
    { rewrite DP at 1. destruct ok; cbn [app].
      - apply Permutation_middle.
      - rewrite (app_assoc (drop_nth k fly) held), (app_assoc (drop_nth k fly) held). apply Permutation_middle. }
    split; unfold written; cbn [w_p w_fly w_held w_lost w_lost0 w_reads w_clean w_tr p_cl p_used p_depth pool_write_done].
    + exact J1.
    + now rewrite bump_length.
    + intros i g c E1 E2. destruct (J3 i g c E1 E2) as (live & cl & R & P & C). exists live, cl. split; [exact R|]. split; [|exact C].
      etransitivity; [exact P|]. now apply at_perm.
    + apply (range_perm _ _ PW J4).
    + apply (depth_shift _ (fst x) (-1) _ _ J5). intros j. unfold depth_of; cbn [w_fly w_reads]. rewrite (drop_at j k fly x E), (Nat.eqb_sym (fst x) j). destruct (Nat.eqb_spec j (fst x)); lia.
    + rewrite J6. destruct ok; [|reflexivity]. rewrite add_used_mod. f_equal. change (blocks (x :: held)) with (snd (snd x) + blocks held). lia.
  - (* a read *)
    eexists _, _. split; [reflexivity|]. split; unfold written; cbn [w_p w_fly w_held w_lost w_lost0 w_reads w_clean w_tr p_cl p_used p_depth pool_read]; auto.
    + now rewrite bump_length.
    + apply (depth_shift _ i 1 _ _ J5). intros j. unfold depth_of; cbn [w_fly w_reads filter]. destruct (Nat.eqb_spec j i); unfold zlen; cbn [length]; lia.
  - (* the end of a read *)
    destruct (nth_error reads k) as [x|] eqn:E; [|apply nth_error_None in E; lia]. cbn [obind]. eexists _, _. split; [reflexivity|].
    split; unfold written; cbn [w_p w_fly w_held w_lost w_lost0 w_reads w_clean w_tr p_cl p_used p_depth pool_read_done]; auto.
    + now rewrite bump_length.
    + apply (depth_shift _ x (-1) _ _ J5). intros j. unfold depth_of; cbn [w_fly w_reads]. rewrite (drop_count j k reads x E). destruct (Nat.eqb_spec j x); lia.
  - (* free *)
    destruct x as (i & lba & len). cbn [fst snd] in *.
    assert (Hw : In (i, (lba, len)) (fly ++ held ++ lost ++ lost0)) by (apply in_or_app; right; apply in_or_app; now left).
    destruct (cluster_at _ i I (J4 _ Hw)) as (g & c & E1 & E2). cbn [w_p] in E2. unfold pool_free. rewrite E1. cbn [obind]. rewrite E2. cbn [obind].
    destruct (J3 i g c E1 E2) as (live & cl & R & P & C).
    assert (Lg : legal live cl (CFree lba len)) by (cbn [legal]; eapply Permutation_in; [symmetry; exact P|]; now apply at_in).
    pose proof (step_runs (cg_v g) c live cl _ (CFree lba len) (pg_v gs PG g (nth_in_gs i g E1)) R Lg) as (c' & r & o & S).
    pose proof S as S'. cbn [step] in S'. destruct (free (cg_v g) lba len c) as [c1|]; [|discriminate]. cbn [obind] in *. injection S' as -> <- <-.
    eexists _, _. split; [reflexivity|]. pose proof (remove_perm _ _ L) as RP.
    assert (PW : Permutation (fly ++ held ++ lost ++ lost0) ((i, (lba, len)) :: fly ++ remove_ext (i, (lba, len)) held ++ lost ++ lost0)).
    { rewrite RP at 1. cbn [app]. apply perm_front. }
    split; unfold written; cbn [w_p w_fly w_held w_lost w_lost0 w_reads w_clean w_tr p_cl p_used p_depth]; auto.
    + now rewrite list_upd_length.
    + intros j g0 c0 F1 F2. rewrite upd_nth_error in F2. pose proof (at_perm j _ _ PW) as PJ. rewrite at_cons in PJ. cbn [fst snd] in PJ.
      destruct (Nat.eqb_spec j i) as [->|Nj].
      * rewrite E2 in F2. injection F2 as <-. rewrite E1 in F1. injection F1 as <-. exists (remove_one (lba, len) live), false. split; [|split; [|discriminate]].
        -- rewrite <- (app_nil_r (at_cluster i tr)). change (remove_one (lba, len) live) with (live_next live (CFree lba len) RUnit). eapply reach_step; eassumption.
        -- rewrite Nat.eqb_refl in PJ. apply (Permutation_cons_inv (a := (lba, len))). rewrite <- (remove_one_perm (lba, len) live Lg). now rewrite P.
      * destruct (J3 j g0 c0 F1 F2) as (lv & b & Rj & Pj & Cj). exists lv, b. split; [exact Rj|]. split; [|discriminate].
        assert (X : (i =? j)%nat = false) by (apply Nat.eqb_neq; lia). rewrite X in PJ. now rewrite Pj.
    + intros x Hx. apply (range_perm _ _ PW J4). now right.
    + rewrite J6, add_used_mod. pose proof (blocks_perm _ _ RP) as BP. change (blocks held = len + blocks (remove_ext (i, (lba, len)) held)) in BP. unfold extent in *. f_equal. lia.
  - (* end of a transaction *)
    assert (K : forall v c live cl tr0, geometry v -> reach v c live cl tr0 -> legal live cl CAdvance -> exists c' o, step v c CAdvance = Some (c', RUnit, o) /\ Some (advance c) = Some (c', o)).
    { intros v c live cl tr0 _ _ _. cbn [step]. destruct (advance c) as (c' & o). eauto. }
    destruct (each_spec (fun _ c => Some (advance c)) gs (p_cl p) 0 J1) as (cs & o & E & _); [congruence|].
    unfold pool_advance. rewrite E. cbn [obind]. eexists _, _. split; [reflexivity|].
    destruct (each_inv _ CAdvance (fun _ c => Some (advance c)) (Pool cs (p_used p) (p_depth p)) (World (Pool cs (p_used p) (p_depth p)) fly held lost lost0 reads false (tr ++ o)) I K)
      as (Q1 & Q2); cbn; auto; try discriminate; [exists cs, o; auto|].
    split; unfold written; cbn [w_p w_fly w_held w_lost w_lost0 w_reads w_clean w_tr p_cl p_used p_depth]; auto.
  - (* sync *)
    set (k := fun v c => let* (c, o) := flush v 0 c in let* (c, o') := flush v 1 c in Some (c, o ++ o')).
    assert (K : forall v c live cl tr0, geometry v -> reach v c live cl tr0 -> legal live cl CSync -> exists c' o, step v c CSync = Some (c', RUnit, o) /\ k v c = Some (c', o)).
    { intros v c live cl tr0 G R Lg. destruct (step_runs v c live cl tr0 CSync G R Lg) as (c' & r & o & S). exists c', o.
      pose proof S as S'. cbn [step] in S'. unfold k. destruct (flush v 0 c) as [(c1 & o1)|]; [|discriminate]. cbn [obind] in *. destruct (flush v 1 c1) as [(c2 & o2)|]; [|discriminate]. cbn [obind] in *.
      injection S' as <- <- <-. auto. }
    destruct (each_spec k gs (p_cl p) 0 J1) as (cs & o & E & _).
    { intros j g c E1 E2. destruct (J3 j g c E1 E2) as (live & cl & R & _). destruct (K (cg_v g) c live cl _ (pg_v gs PG g (nth_in_gs j g E1)) R Logic.I) as (c' & o & _ & Q). congruence. }
    unfold pool_sync. fold k. rewrite E. cbn [obind]. eexists _, _. split; [reflexivity|].
    destruct (each_inv _ CSync k (Pool cs (p_used p) (p_depth p)) (World (Pool cs (p_used p) (p_depth p)) fly held lost lost0 reads true (tr ++ o)) I K)
      as (Q1 & Q2); cbn; auto; [exists cs, o; auto|].
    split; unfold written; cbn [w_p w_fly w_held w_lost w_lost0 w_reads w_clean w_tr p_cl p_used p_depth]; auto.
  - (* export and import *)
    destruct L as (Lc & -> & ->). subst clean.
    assert (K : forall v c live cl tr0, geometry v -> reach v c live cl tr0 -> legal live cl CRemount -> exists c' o, step v c CRemount = Some (c', RUnit, o) /\ reopen v c = Some (c', o)).
    { intros v c live cl tr0 G R Lg. destruct (step_runs v c live cl tr0 CRemount G R Lg) as (c' & r & o & S). exists c', o.
      pose proof S as S'. cbn [step] in S'. destruct (reopen v c) as [(c1 & o1)|]; [|discriminate]. cbn [obind] in *. injection S' as <- <- <-. auto. }
    assert (LL : forall (live : list extent) cl, (true = true -> cl = true) -> legal live cl CRemount) by (intros live cl H; cbn [legal]; auto).
    destruct (each_spec (fun v c => reopen v c) gs (p_cl p) 0 J1) as (cs & o & E & _).
    { intros j g c E1 E2. destruct (J3 j g c E1 E2) as (live & cl & R & _ & C). destruct (K (cg_v g) c live cl _ (pg_v gs PG g (nth_in_gs j g E1)) R (LL live cl C)) as (c' & o & _ & Q). congruence. }
    assert (PW : Permutation ([] ++ held ++ [] ++ lost ++ lost0) ([] ++ held ++ lost ++ lost0)) by reflexivity.
    set (w2 := World (Pool cs 0 (map (fun _ => 0) gs)) [] held [] (lost ++ lost0) [] true (tr ++ o)).
    destruct (each_inv _ CRemount (fun v c => reopen v c) (Pool cs 0 (map (fun _ => 0) gs)) w2 I K LL) as (Q1 & Q2); try reflexivity; [exists cs, o; auto|].
    unfold w2 in Q2; unfold written in Q2; cbn [w_p w_fly w_held w_lost w_lost0 w_reads w_clean w_tr p_cl] in Q1, Q2.
    unfold pool_open. rewrite E. cbn [obind].
    rewrite (omap_used cs (fun i => sum_len (at_cluster i (held ++ lost ++ lost0))) 0).
    2:{ intros j c' E2. destruct (nth_lt j) as (X & _). assert (Lj : (j < length gs)%nat) by (rewrite <- Q1; apply nth_error_Some; congruence).
        destruct (X Lj) as (g & E1). destruct (Q2 j g c' E1 E2) as (live & cl & R & P & _).
        rewrite (C14_used_is_exact (cg_v g) c' live cl _ (pg_v gs PG g (nth_in_gs j g E1)) R). f_equal. now apply sum_len_perm. }
    cbn [obind]. eexists _, _. split; [reflexivity|].
    split; unfold written; cbn [w_p w_fly w_held w_lost w_lost0 w_reads w_clean w_tr p_cl p_used p_depth]; auto.
    + apply map_length.
    + intros i H. apply nth_lt in H. destruct H as (g & F). rewrite nth_error_map, F. reflexivity.
    + change 0 with (0 mod 2^64) at 1. rewrite fold_used, Q1. rewrite blocks_split by exact J4. f_equal. rewrite blocks_app. lia.
Qed.

Lemma preach_inv w : preach gs w -> PInv w.
Proof.
  induction 1 as [|w e w' r _ IH L S]; [apply pinv_init|]. destruct (pstep_inv w e IH L) as (w2 & r2 & S2 & I2). rewrite S in S2. injection S2 as -> _. exact I2.
Qed.
End Inv.
