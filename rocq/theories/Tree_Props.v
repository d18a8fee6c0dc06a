(** C27, C28, C30, C31, C57: the copy-on-write B-tree. *)
From Verif Require Import Common ZMap Tree_Model TreeRD_Model Tree_Inv Tree_Proofs Tree_Remove Tree_Range Tree_Flush.
From Coq Require Import Permutation Sorting.Sorted.

(** * Specification *)

(** Limits that make sense: every node can be split in two legal nodes. *)
Definition legal_limits (lim : limits) : Prop :=
  (2 <= min_int lim /\ 2 * min_int lim + 1 <= max_int lim /\
   1 <= min_leaf lim /\ 2 * min_leaf lim + 1 <= max_leaf lim)%nat.

Section Spec.
Context {V : Type}.

(** What a client does with a tree.  [Insert seq]: the tree is or is not sequentially optimised.  [Tick]: a
    transaction ends.  [Reopen]: the flushed tree is forgotten and opened again from its serialized root. *)
Inductive op :=
| Insert (seq : bool) (k : Z) (v : V)
| Remove (k : Z)
| Flush
| Tick
| Reopen.
(** keys are at least [K::min_value()] *)
Definition legal_op (o : op) : Prop :=
  match o with Insert _ k _ => 0 <= k | _ => True end.

(** the tree, the current transaction, the next address of the layer below, the addresses given back to it *)
Record st := St { s_tree : tree V; s_txg : Z; s_nx : Z; s_freed : list addr }.

(** the empty tree, as created in transaction [txg] when the layer below is about to hand out [nx] *)
Definition init (txg nx : Z) : st := St (Tree default_elem O) txg nx [].

(** One operation; the result is what [insert] and [remove] return.  [None] is a panic.  [Reopen] of a tree whose
    root is not on disk is not a thing a client can do, it is ignored. *)
Definition step (lim : limits) (s : st) (o : op) : option (st * option V) :=
  match o with
  | Insert seq k v =>
      match insert lim seq (s_txg s) k v (s_tree s) with
      | None => None
      | Some (t, old, p) => Some (St t (s_txg s) (s_nx s) (s_freed s ++ p), old)
      end
  | Remove k =>
      match remove lim (s_txg s) k (s_tree s) with
      | None => None
      | Some (t, old, p) => Some (St t (s_txg s) (s_nx s) (s_freed s ++ p), old)
      end
  | Flush =>
      match flush (s_txg s) (s_nx s) (s_tree s) with
      | None => None
      | Some (t, nx) => Some (St t (s_txg s) nx (s_freed s), None)
      end
  | Tick => Some (St (s_tree s) (s_txg s + 1) (s_nx s) (s_freed s), None)
  | Reopen =>
      match serialize (s_tree s) with
      | None => Some (s, None)
      | Some d => Some (St (open d) (s_txg s) (s_nx s) (s_freed s), None)
      end
  end.

(** the same on a map from keys to values *)
Definition map_step (m : Z -> option V) (o : op) : (Z -> option V) * option V :=
  match o with
  | Insert _ k v => (fun j => if j =? k then Some v else m j, m k)
  | Remove k => (fun j => if j =? k then None else m j, m k)
  | _ => (m, None)
  end.

Fixpoint run (lim : limits) (s : st) (os : list op) : option (st * list (option V)) :=
  match os with
  | [] => Some (s, [])
  | o :: r => match step lim s o with
              | None => None
              | Some (s', x) => match run lim s' r with Some (s2, xs) => Some (s2, x :: xs) | None => None end
              end
  end.
Fixpoint map_run (m : Z -> option V) (os : list op) : (Z -> option V) * list (option V) :=
  match os with
  | [] => (m, [])
  | o :: r => let (m', x) := map_step m o in let (m2, xs) := map_run m' r in (m2, x :: xs)
  end.

(** [s] is the state and [m] the map after some history *)
Definition after (lim : limits) (s : st) (m : Z -> option V) : Prop :=
  exists txg nx os xs ys, 0 <= txg /\ Forall legal_op os /\
    run lim (init txg nx) os = Some (s, xs) /\ map_run (fun _ => None) os = (m, ys).

(** [l] lists in increasing order of keys the entries of [m] whose keys satisfy [P] *)
Definition lists (m : Z -> option V) (P : Z -> Prop) (l : list (Z * V)) : Prop :=
  StronglySorted (fun p q => fst p < fst q) l /\
  forall k v, In (k, v) l <-> m k = Some v /\ P k.

Definition in_bounds (s e : bound) (k : Z) : Prop :=
  (match s with Inc a => a <= k | Exc a => a < k | Unb => True end) /\
  (match e with Inc b => k <= b | Exc b => k < b | Unb => True end).
(** the ranges for which the standard library's [BTreeMap::range] does not panic *)
Definition proper (s e : bound) : Prop :=
  match s, e with
  | Inc a, Inc b | Inc a, Exc b | Exc a, Inc b => a <= b
  | Exc a, Exc b => a < b
  | _, _ => True
  end.

(** [below d n n']: [n'] is reached from [n] in [d] steps from parent to child *)
Inductive below : nat -> node V -> node V -> Prop :=
| below_here n : below O n n
| below_child d cs e n : In e cs -> below d (e_node e) n -> below (S d) (Int cs) n.
(** the elements in a subtree *)
Inductive elem_in : node V -> elem V -> Prop :=
| elem_here cs e : In e cs -> elem_in (Int cs) e
| elem_below cs c e : In c cs -> elem_in (e_node c) e -> elem_in (Int cs) e.
(** the keys in a subtree *)
Inductive key_in : node V -> Z -> Prop :=
| key_leaf l k v : In (k, v) l -> key_in (Leaf l) k
| key_below cs c k : In c cs -> key_in (e_node c) k -> key_in (Int cs) k.

(** the element that holds a node of the tree, the root included *)
Definition holds (t : tree V) (e : elem V) : Prop := e = t_root t \/ elem_in (e_node (t_root t)) e.

End Spec.
Arguments op : clear implicits.
Arguments st : clear implicits.

(** * Connection with the invariant *)

Section Connect.
Context {V : Type}.
Context (lim : limits).
Context (HL : legal_limits lim).
Notation tgood := (@tgood V lim (min_int lim) (min_leaf lim)).
Notation good := (@good V lim (min_int lim) (min_leaf lim)).

Lemma lims : lims_ok lim (min_int lim) (min_leaf lim).
Proof. unfold lims_ok. destruct HL as (?&?&?&?). repeat split; lia. Qed.

(** every address ever handed out is in the tree or was given back, once *)
Definition accounted (nx0 : Z) (s : st V) : Prop :=
  nx0 <= s_nx s /\ Permutation (map a_id (s_freed s ++ all_addrs (s_tree s))) (zrange nx0 (s_nx s)).

Definition sinv (nx0 : Z) (s : st V) (m : Z -> option V) : Prop :=
  tgood (s_txg s) (s_tree s) /\ (forall k, m k = zm_get k (contents (s_tree s))) /\ accounted nx0 s.

Lemma flush_addrs txg nx nx' (t t' : tree V) : fl_tree txg t t' nx nx' ->
  nx <= nx' /\ Permutation (all_addrs t') (map (fun i => Addr i txg) (zrange nx nx') ++ all_addrs t).
Proof.
  intros (A & _ & _ & new & [B1 B2] & C). split; [exact B1|]. unfold all_addrs. rewrite A, <- !recs_addrs_e.
  rewrite C, map_app, B2. reflexivity.
Qed.

Lemma open_serialize (t : tree V) T d : tgood T t -> serialize t = Some d ->
  tgood T (open d) /\ contents (open d) = contents t /\ all_addrs (open d) = all_addrs t.
Proof.
  unfold tgood, serialize, contents, all_addrs. destruct t as [[rk rs rt rp rm rn] h]. cbn [t_root t_h].
  intros G E. destruct rp as [a|]; [|discriminate]. injection E as <-. cbn [open t_root t_h]. destruct G as (->&G). split; [split; [reflexivity|exact G]|].
  split; reflexivity.
Qed.

Lemma step_inv nx0 s m o : sinv nx0 s m -> legal_op o -> exists s' x,
  step lim s o = Some (s', x) /\ sinv nx0 s' (fst (map_step m o)) /\ snd (map_step m o) = x.
Proof.
  intros (G & M & [A1 A2]) Lo. pose proof (tgood_ok _ _ _ _ _ G) as Ok. destruct o as [seq k v|k| | |]; cbn [step map_step fst snd].
  - destruct (insert_spec lim _ _ lims _ (s_txg s) _ seq k v G ltac:(lia) Lo) as (t' & p & E & G' & C & P & _).
    rewrite E. eexists _, _. split; [reflexivity|]. split; [|apply M]. split; [exact G'|]. cbn [s_tree s_txg s_nx s_freed]. split.
    + intros j. rewrite C, zm_get_set by exact Ok. now destruct (j =? k).
    + split; [exact A1|]. cbn [s_tree s_txg s_nx s_freed]. rewrite <- app_assoc. rewrite P. exact A2.
  - destruct (remove_spec lim _ _ lims _ (s_txg s) _ k G ltac:(lia) ltac:(apply HL)) as (t' & p & E & G' & C & P & _).
    rewrite E. eexists _, _. split; [reflexivity|]. split; [|apply M]. split; [exact G'|]. cbn [s_tree s_txg s_nx s_freed]. split.
    + intros j. rewrite C, zm_get_del by exact Ok. now destruct (j =? k).
    + split; [exact A1|]. cbn [s_tree s_txg s_nx s_freed]. rewrite <- app_assoc. rewrite P. exact A2.
  - destruct (flush_spec lim _ _ lims (s_txg s) _ _ (s_nx s) G ltac:(lia)) as (t' & nx' & E & F & G' & _).
    rewrite E. eexists _, _. split; [reflexivity|]. split; [|reflexivity]. split; [exact G'|]. cbn [s_tree s_txg s_nx s_freed]. split.
    + intros j. destruct F as (_ & C & _). rewrite C. apply M.
    + apply flush_addrs in F. destruct F as [F1 F2]. split; cbn [s_tree s_txg s_nx s_freed]; [lia|].
      rewrite (zrange_split nx0 (s_nx s) nx') by lia. rewrite map_app, F2, map_app, map_map. cbn [a_id]. rewrite map_id.
      rewrite Permutation_app_swap_app, <- map_app, A2. apply Permutation_app_comm.
  - eexists _, _. split; [reflexivity|]. split; [|reflexivity]. split; [cbn; eapply tgood_mono; [|exact G]; lia|]. split; [exact M|]. split; assumption.
  - destruct (serialize (s_tree s)) as [d|] eqn:E.
    + destruct (open_serialize _ _ _ G E) as (G' & C & P). eexists _, _. split; [reflexivity|]. split; [|reflexivity].
      split; [exact G'|]. cbn [s_tree s_txg s_nx s_freed]. split; [intros j; rewrite C; apply M|]. split; [exact A1|]. cbn. rewrite P. exact A2.
    + eexists _, _. split; [reflexivity|]. split; [|reflexivity]. split; [exact G|]. split; [exact M|]. split; assumption.
Qed.

Lemma run_inv nx0 : forall os s m, sinv nx0 s m -> Forall legal_op os -> exists s',
  run lim s os = Some (s', snd (map_run m os)) /\ sinv nx0 s' (fst (map_run m os)).
Proof.
  induction os as [|o r IH]; intros s m I Lo; [exists s; auto|].
  inversion Lo; subst. destruct (step_inv nx0 s m o I ltac:(assumption)) as (s1 & x & E & I1 & Ex).
  cbn [run map_run]. rewrite E. destruct (map_step m o) as [m1 y]. cbn [fst snd] in *. subst y.
  destruct (IH s1 m1 I1 ltac:(assumption)) as (s2 & E2 & I2). rewrite E2. destruct (map_run m1 r) as [m2 xs].
  exists s2. auto.
Qed.

Lemma init_inv txg nx : 0 <= txg -> sinv nx (init txg nx) (fun _ => None).
Proof.
  intros L. split; [apply tgood_empty; exact L|]. split; [reflexivity|]. split; [cbn; lia|]. cbn. rewrite zrange_empty by lia. constructor.
Qed.

Lemma after_inv s m : after lim s m -> exists nx0, sinv nx0 s m.
Proof.
  intros (txg & nx & os & xs & ys & L & Lo & R & M). exists nx.
  destruct (run_inv nx os _ _ (init_inv txg nx L) Lo) as (s' & E & I). rewrite M in *. rewrite R in E. injection E as -> ->. exact I.
Qed.

Lemma zm_ok_lists (l : list (Z * V)) : zm_ok l -> StronglySorted (fun p q => fst p < fst q) l.
Proof.
  induction l as [|[k v] l IH]; intros H; [constructor|]. apply zm_ok_cons in H. destruct H as [H1 H2]. constructor; auto.
Qed.
Lemma zm_ok_filter f (l : list (Z * V)) : zm_ok l -> zm_ok (filter f l).
Proof.
  induction l as [|[k v] l IH]; intros H; [exact H|]. apply zm_ok_cons in H. destruct H as [H1 H2]. cbn [filter].
  destruct (f (k, v)); auto. apply zm_ok_cons. split; auto. rewrite Forall_forall in *. intros p Hp. apply filter_In in Hp. apply H2. tauto.
Qed.

Lemma in_bounds_dec s e k : in_bounds s e k <-> above s k && Tree_Model.below e k = true.
Proof. unfold in_bounds. destruct s, e; cbn; lia. Qed.
Lemma proper_dec s e : proper s e -> range_panics s e = false.
Proof. unfold proper. destruct s, e; cbn; lia. Qed.

(** ** C27 *)

Theorem ordered_map txg nx (os : list (op V)) : 0 <= txg -> Forall legal_op os ->
  exists s, run lim (init txg nx) os = Some (s, snd (map_run (fun _ => None) os)).
Proof. intros L Lo. destruct (run_inv nx os _ _ (init_inv txg nx L) Lo) as (s & E & _). eauto. Qed.

Theorem get_as_map (s : st V) m k : after lim s m -> get (s_tree s) k = Some (m k).
Proof. intros A. apply after_inv in A. destruct A as (nx & G & M & _). rewrite (get_spec _ _ _ lims _ _ k G), M. reflexivity. Qed.

Theorem last_key_as_map (s : st V) m : after lim s m -> exists o, last_key (s_tree s) = Some o /\
  match o with
  | None => forall k, m k = None
  | Some k => m k <> None /\ forall j, m j <> None -> j <= k
  end.
Proof.
  intros A. apply after_inv in A. destruct A as (nx & G & M & _). rewrite (last_key_spec _ _ _ lims _ _ G).
  pose proof (tgood_ok _ _ _ _ _ G) as Ok. eexists. split; [reflexivity|].
  destruct (rev (contents (s_tree s))) as [|[k v] r] eqn:E.
  - assert (C : contents (s_tree s) = []) by (rewrite <- (rev_involutive (contents _)), E; reflexivity).
    intros k. rewrite M, C. reflexivity.
  - assert (C : contents (s_tree s) = rev r ++ [(k, v)]) by (rewrite <- (rev_involutive (contents _)), E; reflexivity).
    cbn [fst]. split.
    + rewrite M. erewrite zm_in_get; [discriminate|exact Ok|]. rewrite C. apply in_or_app. right. now left.
    + intros j Hj. rewrite M in Hj. destruct (zm_get j (contents (s_tree s))) as [w|] eqn:Ej; [|congruence]. apply zm_get_in in Ej.
      rewrite C in Ej, Ok. unfold zm_ok in Ok. rewrite map_app in Ok. cbn [map fst] in Ok.
      apply in_app_or in Ej. destruct Ej as [Ej|[[= -> ->]|[]]]; [|lia].
      assert (I : In j (map fst (rev r))) by (apply in_map_iff; exists (j, w); auto).
      clear - Ok I. induction (map fst (rev r)) as [|x l IH]; [destruct I|]. cbn in Ok. inversion Ok; subst. destruct I as [->|I]; [|auto].
      rewrite Forall_forall in H2. specialize (H2 k). rewrite in_app_iff in H2. cbn in H2. specialize (H2 ltac:(auto)). lia.
Qed.

Theorem range_as_map (s : st V) m b e : after lim s m -> proper b e -> exists l,
  lists m (in_bounds b e) l /\
  forall fuel, (length l < fuel)%nat -> range_query fuel (s_tree s) (Some b) e = Some l.
Proof.
  intros A P. apply after_inv in A. destruct A as (nx & G & M & _). pose proof (tgood_ok _ _ _ _ _ G) as Ok.
  exists (F b e (contents (s_tree s))). split; [split|].
  - apply zm_ok_lists, zm_ok_filter, Ok.
  - intros k v. unfold F. rewrite filter_In. unfold inr. cbn [fst]. rewrite in_bounds_dec, M. split.
    + intros [H1 H2]. split; [now apply zm_in_get|exact H2].
    + intros [H1 H2]. split; [now apply zm_get_in|exact H2].
  - intros fuel Lf. eapply range_query_spec; eauto using proper_dec, lims.
Qed.

(** ** C28 *)

Lemma good_below : forall d h lo hi ts te (n n' : node V), good h lo hi ts te n -> below d n n' ->
  (d <= h)%nat /\ (d <> O -> len_ok lim (min_int lim) (min_leaf lim) n') /\
  exists lo' hi' ts' te', good (h - d) lo' hi' ts' te' n'.
Proof.
  induction d as [|d IH]; intros h lo hi ts te n n' G B; inversion B; subst.
  - split; [lia|]. split; [congruence|]. rewrite Nat.sub_0_r. eauto 6.
  - destruct h; [destruct G|]. apply good_S in G. destruct G as [C _].
    destruct (chain_in _ _ _ _ _ C H0) as [_ [nx (_&_&Ln&_&G)]]. destruct (IH _ _ _ _ _ _ _ G H1) as (A1 & A2 & A3).
    split; [lia|]. split; [|exact A3]. intros _. destruct d; [inversion H1; subst; exact Ln|]. apply A2. discriminate.
Qed.

Theorem leaves_at_same_depth (s : st V) m : after lim s m ->
  forall d n, below d (e_node (t_root (s_tree s))) n ->
    match n with Leaf _ => d = t_h (s_tree s) | Int _ => (d < t_h (s_tree s))%nat end.
Proof.
  intros A d n B. apply after_inv in A. destruct A as (nx & G & _). unfold tgood in G. destruct (t_root (s_tree s)) as [rk rs rt rp rm rn].
  destruct G as (_&G&_). cbn [e_node] in B. destruct (good_below _ _ _ _ _ _ _ _ G B) as (H1 & _ & lo' & hi' & ts' & te' & G').
  destruct (t_h (s_tree s) - d)%nat eqn:E; destruct n; try destruct G'; lia.
Qed.

Theorem fanout (s : st V) m : after lim s m ->
  forall d n, below d (e_node (t_root (s_tree s))) n ->
    (n_len n <= n_max lim n)%nat /\ (d <> O -> (n_min lim n <= n_len n)%nat).
Proof.
  intros A d n B. apply after_inv in A. destruct A as (nx & G & _). unfold tgood in G. destruct (t_root (s_tree s)) as [rk rs rt rp rm rn].
  destruct G as (_&G&_&_&Ln&_). cbn [e_node] in B. destruct (good_below _ _ _ _ _ _ _ _ G B) as (_ & H2 & _).
  destruct d.
  - inversion B; subst. split; [exact Ln|congruence].
  - specialize (H2 ltac:(discriminate)). destruct n; cbn in *; lia.
Qed.

Lemma good_key h : forall lo hi ts te (n : node V) k, good h lo hi ts te n -> key_in n k -> lo <= k /\ lt_opt k hi.
Proof.
  induction h as [|h IH]; intros lo hi ts te n k G K; inversion K; subst; try (destruct G; fail).
  - cbn in G. destruct G as [_ F]. rewrite Forall_forall in F. apply (F _ H).
  - apply good_S in G. destruct G as [C _]. apply in_split in H. destruct H as (l & r & ->).
    apply chain_mid in C. destruct C as (C1 & C2 & (A1&A2&A3&A4&G) & C3). destruct (IH _ _ _ _ _ _ G H0) as [B1 B2].
    apply endlo_ge in C1. split; [lia|]. destruct r as [|e r]; [exact B2|]. cbn in B2.
    assert (X : lt_opt (e_key e) hi). { eapply chain_key_hi; [exact C3|now left]. }
    destruct hi; cbn in *; [lia|exact I].
Qed.

Theorem separators (s : st V) m : after lim s m ->
  forall d l e r k, below d (e_node (t_root (s_tree s))) (Int (l ++ e :: r)) -> key_in (e_node e) k ->
    e_key e <= k /\ match r with [] => True | e' :: _ => k < e_key e' end.
Proof.
  intros A d l e r k B K. apply after_inv in A. destruct A as (nx & G & _). unfold tgood in G. destruct (t_root (s_tree s)) as [rk rs rt rp rm rn].
  destruct G as (_&G&_). cbn [e_node] in B. destruct (good_below _ _ _ _ _ _ _ _ G B) as (_ & _ & lo' & hi' & ts' & te' & G').
  destruct (t_h (s_tree s) - d)%nat; [destruct G'|]. apply good_S in G'. destruct G' as [C _].
  apply chain_mid in C. destruct C as (C1 & C2 & (A1&A2&A3&A4&Ge) & C3). destruct (good_key _ _ _ _ _ _ _ Ge K) as [B1 B2].
  split; [exact B1|]. destruct r; [exact I|exact B2].
Qed.

(** ** C30 *)

Lemma recs_dirty h : forall lo hi ts te (n : node V), good h lo hi ts te n ->
  (length (recs_below h n) + dirty_count h n = length (keys_below h n))%nat.
Proof.
  induction h as [|h IH]; intros lo hi ts te n G; destruct n as [l|cs]; try reflexivity.
  apply good_S in G. destruct G as [C _]. cbn [recs_below dirty_count keys_below].
  revert lo C. induction cs as [|e r IHr]; intros lo C; [reflexivity|]. destruct C as (_ & (_&_&_&_&G) & C).
  specialize (IHr _ C). cbn [flat_map]. rewrite map_cons, list_sum_cons, !app_length. cbn [length].
  specialize (IH _ _ _ _ _ G).
  assert (D : is_dirty e = match e_ptr e with None => true | Some _ => false end) by reflexivity. rewrite D.
  destruct (e_ptr e); cbn [length]; lia.
Qed.

Lemma clean_elem h : forall (n : node V), clean h n -> forall lo hi ts te, good h lo hi ts te n ->
  forall e, elem_in n e -> e_ptr e <> None.
Proof.
  induction h as [|h IH]; intros n C lo hi ts te G e E; inversion E; subst; try (destruct G; fail);
    cbn in C; rewrite Forall_forall in C; [apply C; assumption|].
  apply good_S in G. destruct G as [Ch _]. destruct (chain_in _ _ _ _ _ Ch H) as [_ [nx (_&_&_&_&G)]].
  eapply IH; [apply C; exact H|exact G|exact H0].
Qed.

Lemma elem_in_recs h : forall lo hi ts te (n : node V), good h lo hi ts te n -> forall e a, elem_in n e -> e_ptr e = Some a ->
  In (a, e_node e) (recs_below h n).
Proof.
  induction h as [|h IH]; intros lo hi ts te n G e a E P; inversion E; subst; try (destruct G; fail);
    cbn [recs_below]; apply in_flat_map.
  - exists e. split; [assumption|]. rewrite P. now left.
  - exists c. split; [assumption|]. apply in_or_app. right. apply good_S in G. destruct G as [Ch _].
    destruct (chain_in _ _ _ _ _ Ch H) as [_ [nx (_&_&_&_&G)]]. eapply IH; eauto.
Qed.
Lemma recs_elem_in h : forall (n : node V) a n', In (a, n') (recs_below h n) -> exists e, elem_in n e /\ e_ptr e = Some a /\ e_node e = n'.
Proof.
  induction h as [|h IH]; intros [l|cs] a n' I; try destruct I. cbn [recs_below] in I. apply in_flat_map in I. destruct I as (c & Ic & I).
  apply in_app_or in I. destruct I as [I|I].
  - destruct (e_ptr c) eqn:E; [|destruct I]. destruct I as [[= -> <-]|[]]. exists c. split; [now constructor|]. auto.
  - destruct (IH _ _ _ I) as (e & E1 & E2). exists e. split; [eapply elem_below; eauto|exact E2].
Qed.
Lemma holds_recs T (t : tree V) e a : tgood T t -> holds t e -> e_ptr e = Some a -> In (a, e_node e) (recs_elem (t_h t) (t_root t)).
Proof.
  unfold tgood, holds. destruct t as [[rk rs rt rp rm rn] h]. cbn [t_root t_h]. intros (_&G&_) H P. rewrite recs_e. cbn [e_ptr e_node] in *. apply in_or_app.
  destruct H as [->|H]; [left; cbn in *; rewrite P; now left|right]. eapply elem_in_recs; eauto.
Qed.
Lemma recs_holds (t : tree V) a n : In (a, n) (recs_elem (t_h t) (t_root t)) -> exists e, holds t e /\ e_ptr e = Some a /\ e_node e = n.
Proof.
  destruct t as [[rk rs rt rp rm rn] h]. cbn [t_root t_h]. unfold holds. cbn [t_root]. rewrite recs_e. intros I. cbn [e_ptr e_node] in *. apply in_app_or in I. destruct I as [I|I].
  - destruct rp; [|destruct I]. destruct I as [[= -> <-]|[]]. eexists. split; [left; reflexivity|]. auto.
  - apply recs_elem_in in I. destruct I as (e & E1 & E2). exists e. auto.
Qed.

(** the number of nodes of the tree that are in memory only *)
Definition dirty_nodes (t : tree V) : nat :=
  ((if is_dirty (t_root t) then 1 else 0) + dirty_count (t_h t) (e_node (t_root t)))%nat.

Theorem flush_cleans (s : st V) m : after lim s m -> exists t nx, flush (s_txg s) (s_nx s) (s_tree s) = Some (t, nx) /\
  (forall e, holds t e -> e_ptr e <> None) /\
  (forall e a, holds (s_tree s) e -> e_ptr e = Some a -> exists e', holds t e' /\ e_ptr e' = Some a /\ e_node e' = e_node e) /\
  nx = s_nx s + Z.of_nat (dirty_nodes (s_tree s)) /\
  (forall e a, holds t e -> e_ptr e = Some a ->
     (exists e0, holds (s_tree s) e0 /\ e_ptr e0 = Some a /\ e_node e0 = e_node e) \/ (s_nx s <= a_id a < nx /\ a_txg a = s_txg s)).
Proof.
  intros A. apply after_inv in A. destruct A as (nx0 & G & M & _).
  destruct (flush_spec lim _ _ lims (s_txg s) _ _ (s_nx s) G ltac:(lia)) as (t & nx & E & F & G' & R & _).
  exists t, nx. split; [exact E|]. assert (F' := F). destruct F' as (Hh & Hc & Hk & new & [N1 N2] & P).
  assert (Cl : forall e, holds t e -> e_ptr e <> None).
  { intros e [->|H]; [exact R|]. unfold tgood in G'. destruct t as [[rk rs rt rp rm rn] h]. cbn [t_root t_h e_ptr e_node] in *.
    destruct G' as (_&G'&_&_&_&_&Pt). destruct rp; [|congruence]. destruct Pt as [_ Pt]. eapply clean_elem; eauto. }
  split; [exact Cl|]. split.
  { intros e a He Pe. pose proof (holds_recs _ _ _ _ G He Pe) as I.
    assert (I' : In (a, e_node e) (recs_elem (t_h t) (t_root t))). { rewrite Hh. eapply Permutation_in; [symmetry; exact P|]. apply in_or_app. now right. }
    apply recs_holds in I'. exact I'. }
  split.
  { assert (L : length (recs_elem (t_h (s_tree s)) (t_root t)) = (Z.to_nat (nx - s_nx s) + length (recs_elem (t_h (s_tree s)) (t_root (s_tree s))))%nat).
    { rewrite P, app_length. f_equal. rewrite <- (map_length fst new), N2, map_length, zrange_length. reflexivity. }
    assert (L1 : forall T' (t' : tree V), tgood T' t' -> t_h t' = t_h (s_tree s) ->
      (length (recs_elem (t_h (s_tree s)) (t_root t')) + dirty_nodes t' = 1 + length (keys_below (t_h (s_tree s)) (e_node (t_root t'))))%nat).
    { intros T' t' Gt Ht. unfold dirty_nodes, tgood in *. rewrite <- Ht. destruct t' as [[rk rs rt rp rm rn] h]. cbn [t_root t_h] in *.
      destruct Gt as (_&Gt&_). apply recs_dirty in Gt. rewrite recs_e, app_length. cbn [e_ptr e_node] in *. destruct rp; unfold is_dirty; cbn [length e_ptr]; lia. }
    pose proof (L1 _ _ G eq_refl) as L2. pose proof (L1 _ _ G' Hh) as L3. rewrite Hk in L3.
    assert (D0 : dirty_nodes t = O).
    { unfold dirty_nodes, tgood in *. destruct t as [[rk rs rt rp rm rn] h]. cbn [t_root t_h e_ptr e_node is_dirty] in *.
      destruct G' as (_&_&_&_&_&_&Pt). destruct rp; [|congruence]. destruct Pt as [_ Pt]. rewrite clean_dcount; auto. }
    lia. }
  intros e a He Pe. pose proof (holds_recs _ _ _ _ G' He Pe) as I. rewrite Hh in I. eapply Permutation_in in I; [|exact P].
  apply in_app_or in I. destruct I as [I|I].
  - right. assert (Ia : In a (map fst new)) by (apply in_map_iff; exists (a, e_node e); auto).
    eapply Permutation_in in Ia; [|exact N2]. apply in_map_iff in Ia. destruct Ia as (i & <- & Ii). apply in_zrange in Ii. cbn. lia.
  - left. apply recs_holds in I. exact I.
Qed.

Theorem flush_clean_noop (s : st V) m : after lim s m -> e_ptr (t_root (s_tree s)) <> None ->
  flush (s_txg s) (s_nx s) (s_tree s) = Some (s_tree s, s_nx s).
Proof.
  intros A D. apply after_inv in A. destruct A as (nx0 & G & M & _).
  destruct (flush_spec lim _ _ lims (s_txg s) _ _ (s_nx s) G ltac:(lia)) as (t & nx & E & F & G' & R & No).
  rewrite E. rewrite (No D) in *. f_equal. f_equal. destruct F as (_ & _ & _ & new & [N1 N2] & P).
  apply Permutation_length in P. rewrite app_length in P. apply Permutation_length in N2. rewrite !map_length, zrange_length in N2. lia.
Qed.

(** ** C31 *)

Lemma holds_addrs T (t : tree V) e a : tgood T t -> holds t e -> e_ptr e = Some a -> In a (all_addrs t).
Proof.
  intros G H P. unfold all_addrs. rewrite <- recs_addrs_e. apply in_map_iff. exists (a, e_node e). split; [reflexivity|]. eapply holds_recs; eauto.
Qed.
Lemma addrs_holds (t : tree V) a : In a (all_addrs t) -> exists e, holds t e /\ e_ptr e = Some a.
Proof.
  intros I. unfold all_addrs in I. rewrite <- recs_addrs_e in I. apply in_map_iff in I. destruct I as ([a' n] & <- & I).
  apply recs_holds in I. destruct I as (e & H & P & _). exists e. auto.
Qed.

Theorem addresses_find (s : st V) m b e : after lim s m ->
  (forall el a, holds (s_tree s) el -> e_ptr el = Some a -> in_bounds b e (a_txg a) -> In a (addresses b e (s_tree s))) /\
  (forall a, In a (addresses b e (s_tree s)) -> exists el, holds (s_tree s) el /\ e_ptr el = Some a).
Proof.
  intros A. apply after_inv in A. destruct A as (nx0 & G & M & _). split.
  - intros el a H P B. apply in_bounds_dec, andb_true_iff in B. destruct B. eapply addresses_complete; eauto using holds_addrs.
  - intros a I. apply addrs_holds. eapply addresses_sound; eauto.
Qed.

End Connect.

(** * The theorems *)

(** Whatever is done to a tree, it never panics, and [insert] and [remove] return what a map would return. *)
Theorem C27_insert_remove_as_map {V} lim txg nx (os : list (op V)) :
  legal_limits lim -> 0 <= txg -> Forall legal_op os ->
  exists s, run lim (init txg nx) os = Some (s, snd (map_run (fun _ => None) os)).
Proof. intros. now apply ordered_map. Qed.

Theorem C27_get_as_map {V} lim (s : st V) m k : legal_limits lim -> after lim s m -> get (s_tree s) k = Some (m k).
Proof. intros. eapply get_as_map; eauto. Qed.

Theorem C27_last_key_as_map {V} lim (s : st V) m : legal_limits lim -> after lim s m ->
  exists o, last_key (s_tree s) = Some o /\
  match o with
  | None => forall k, m k = None
  | Some k => m k <> None /\ forall j, m j <> None -> j <= k
  end.
Proof. intros. eapply last_key_as_map; eauto. Qed.

(** A range query, iterated until its end, returns exactly the entries of the range, in order. *)
Theorem C27_range_as_map {V} lim (s : st V) m b e : legal_limits lim -> after lim s m -> proper b e ->
  exists l, lists m (in_bounds b e) l /\
  forall fuel, (length l < fuel)%nat -> range_query fuel (s_tree s) (Some b) e = Some l.
Proof. intros. eapply range_as_map; eauto. Qed.

Theorem C28_leaves_at_same_depth {V} lim (s : st V) m : legal_limits lim -> after lim s m ->
  forall d n, below d (e_node (t_root (s_tree s))) n ->
    match n with Leaf _ => d = t_h (s_tree s) | Int _ => (d < t_h (s_tree s))%nat end.
Proof. intros. eapply leaves_at_same_depth; eauto. Qed.

Theorem C28_fanout {V} lim (s : st V) m : legal_limits lim -> after lim s m ->
  forall d n, below d (e_node (t_root (s_tree s))) n ->
    (n_len n <= n_max lim n)%nat /\ (d <> O -> (n_min lim n <= n_len n)%nat).
Proof. intros. eapply fanout; eauto. Qed.

Theorem C28_separators {V} lim (s : st V) m : legal_limits lim -> after lim s m ->
  forall d l e r k, below d (e_node (t_root (s_tree s))) (Int (l ++ e :: r)) -> key_in (e_node e) k ->
    e_key e <= k /\ match r with [] => True | e' :: _ => k < e_key e' end.
Proof. intros. eapply separators; eauto. Qed.

(** The limits that [Tree::create] computes are legal, whatever the size of an element, provided that at least ten
    of them fit into the target size and that the fanout fits into a [u16]. *)
Theorem C28_created_limits_are_legal seq es_i raw_i es_l raw_l :
  0 < es_i -> 10 * es_i + 12 <= raw_i -> 2 * raw_i < 65536 * es_i ->
  0 < es_l -> 10 * es_l + 12 <= raw_l -> 2 * raw_l < 65536 * es_l ->
  let (mini, maxi) := mk_fanout seq es_i raw_i in
  let (minl, maxl) := mk_fanout seq es_l raw_l in
  legal_limits (Limits (Z.to_nat mini) (Z.to_nat maxi) (Z.to_nat minl) (Z.to_nat maxl)).
Proof.
  assert (H : forall es raw, 0 < es -> 10 * es + 12 <= raw -> 2 * raw < 65536 * es ->
    let (mn, mx) := mk_fanout seq es raw in 3 <= mn /\ 2 * mn + 1 <= mx).
  { intros es raw A B C. unfold mk_fanout. cbv zeta. set (x := if seq then _ else _).
    assert (X : 10 <= x < 65536).
    { subst x. destruct seq.
      - assert (D := Z.div_mod ((raw - 12) * 4) 3 ltac:(lia)). pose proof (Z.mod_pos_bound ((raw - 12) * 4) 3 ltac:(lia)).
        change (4 - 1) with 3. set (y := (raw - 12) * 4 / 3) in *. split; [apply Z.div_le_lower_bound; lia|apply Z.div_lt_upper_bound; lia].
      - split; [|]. + assert (10 <= (raw - 12) / es) by (apply Z.div_le_lower_bound; lia). lia.
        + assert ((raw - 12) / es < 32768) by (apply Z.div_lt_upper_bound; lia). lia. }
    rewrite Z.mod_small by lia. pose proof (Z.div_mod (x + 4 - 1) 4 ltac:(lia)). pose proof (Z.mod_pos_bound (x + 4 - 1) 4 ltac:(lia)). lia. }
  intros A1 A2 A3 B1 B2 B3. pose proof (H _ _ A1 A2 A3) as HA. pose proof (H _ _ B1 B2 B3) as HB.
  destruct (mk_fanout seq es_i raw_i) as [mini maxi], (mk_fanout seq es_l raw_l) as [minl maxl].
  unfold legal_limits. cbn [min_int max_int min_leaf max_leaf]. repeat split; lia.
Qed.

(** The trees that the software creates (9.00 * 4096 and so on, rounded down): the file system tree, the forest, the
    allocation table and the record indirection table. *)
Example C28_created_limits_ex :
  map (fun '(seq, es, raw) => mk_fanout seq es raw)
    [(false, 16 + 13, 36864); (false, 16 + 8 + 4 + 8, 6594); (true, 16 + 44, 16384); (true, 16 + 8 + 4 + 8, 8192);
     (true, 10 + 8, 67584); (true, 10 + 8 + 4 + 27, 11505); (true, 8 + 35, 17285); (true, 8 + 8 + 4 + 27, 15278)]
  = [(635, 2540); (91, 364); (91, 363); (76, 302); (1252, 5005); (78, 312); (134, 535); (109, 433)].
Proof. vm_compute. reflexivity. Qed.

(** After a flush every node is on disk; a record that was on disk is kept as it was, at the same address; the number of
    addresses taken is the number of nodes that were not on disk; and every node has either its old address or one of the
    new ones, born in this transaction.  That the contents are the same is C27, for histories with [Flush] and
    [Reopen]. *)
Theorem C30_flush_cleans {V} lim (s : st V) m : legal_limits lim -> after lim s m ->
  exists t nx, flush (s_txg s) (s_nx s) (s_tree s) = Some (t, nx) /\
  (forall e, holds t e -> e_ptr e <> None) /\
  (forall e a, holds (s_tree s) e -> e_ptr e = Some a -> exists e', holds t e' /\ e_ptr e' = Some a /\ e_node e' = e_node e) /\
  nx = s_nx s + Z.of_nat (dirty_nodes (s_tree s)) /\
  (forall e a, holds t e -> e_ptr e = Some a ->
     (exists e0, holds (s_tree s) e0 /\ e_ptr e0 = Some a /\ e_node e0 = e_node e) \/ (s_nx s <= a_id a < nx /\ a_txg a = s_txg s)).
Proof. intros. eapply flush_cleans; eauto. Qed.

Theorem C30_flush_of_clean_tree_does_nothing {V} lim (s : st V) m : legal_limits lim -> after lim s m ->
  e_ptr (t_root (s_tree s)) <> None -> flush (s_txg s) (s_nx s) (s_tree s) = Some (s_tree s, s_nx s).
Proof. intros. eapply flush_clean_noop; eauto. Qed.

(** After a flush the tree can be opened from its serialized root, and is the same map. *)
Theorem C30_reopened_tree_is_same_map {V} lim (s : st V) m : legal_limits lim -> after lim s m ->
  exists s' d, step lim s Flush = Some (s', None) /\ serialize (s_tree s') = Some d /\
  after lim (St (open d) (s_txg s') (s_nx s') (s_freed s')) m /\ forall k, get (open d) k = Some (m k).
Proof.
  intros L A. destruct (C30_flush_cleans lim s m L A) as (t & nx & E & C & _).
  assert (St1 : step lim s Flush = Some (St t (s_txg s) nx (s_freed s), None)) by (cbn; rewrite E; reflexivity).
  assert (Se : exists d, serialize t = Some d).
  { specialize (C (t_root t) (or_introl eq_refl)). unfold serialize. destruct (t_root t) as [rk rs rt rp rm rn]. cbn in C. destruct rp; [eauto|congruence]. }
  destruct Se as [d Hd]. exists (St t (s_txg s) nx (s_freed s)), d. split; [exact St1|]. split; [exact Hd|].
  cbn [s_txg s_nx s_freed].
  assert (Af : after lim (St (open d) (s_txg s) nx (s_freed s)) m).
  { destruct A as (txg & nx1 & os & xs & ys & A1 & A2 & A3 & A4).
    assert (Ra : forall o1 o2 (s0 : st V) s1 xs1, run lim s0 o1 = Some (s1, xs1) ->
      run lim s0 (o1 ++ o2) = match run lim s1 o2 with Some (s2, xs2) => Some (s2, xs1 ++ xs2) | None => None end).
    { induction o1 as [|o r IH]; intros o2 s0 s1 xs1 R; cbn [run app] in *.
      - injection R as -> <-. destruct (run lim s1 o2) as [[? ?]|]; reflexivity.
      - destruct (step lim s0 o) as [[sa x]|]; [|discriminate]. destruct (run lim sa r) as [[sb xb]|] eqn:Eb; [|discriminate].
        injection R as -> <-. rewrite (IH o2 _ _ _ Eb). destruct (run lim s1 o2) as [[? ?]|]; reflexivity. }
    assert (Ma : forall o1 o2 (m0 : Z -> option V), fst (map_run m0 (o1 ++ o2)) = fst (map_run (fst (map_run m0 o1)) o2)).
    { induction o1 as [|o r IH]; intros o2 m0; cbn [map_run app]; [reflexivity|]. destruct (map_step m0 o) as [m1 x].
      specialize (IH o2 m1). destruct (map_run m1 (r ++ o2)), (map_run m1 r). exact IH. }
    exists txg, nx1, (os ++ [Flush; Reopen]). rewrite (Ra _ _ _ _ _ A3). cbn [run]. rewrite St1. cbn [step s_tree]. rewrite Hd.
    eexists _, (snd (map_run (fun _ => None) (os ++ [Flush; Reopen]))). split; [exact A1|]. split; [apply Forall_app; split; [exact A2|repeat constructor]|].
    split; [reflexivity|].
    specialize (Ma os [Flush; Reopen] (fun _ => None)). rewrite A4 in Ma. cbn [fst map_run map_step] in Ma.
    rewrite (surjective_pairing (map_run _ _)). rewrite Ma. reflexivity. }
  split; [exact Af|]. intros k. apply (C27_get_as_map _ _ _ k L Af).
Qed.

(** Every record of the tree that was written in one of the transactions asked for is found, and nothing is found that is
    not a record of the tree. *)
Theorem C31_addresses_complete {V} lim (s : st V) m b e : legal_limits lim -> after lim s m ->
  (forall el a, holds (s_tree s) el -> e_ptr el = Some a -> in_bounds b e (a_txg a) -> In a (addresses b e (s_tree s))) /\
  (forall a, In a (addresses b e (s_tree s)) -> exists el, holds (s_tree s) el /\ e_ptr el = Some a).
Proof. intros. eapply addresses_find; eauto. Qed.

(** Every address handed out by the layer below is either in the tree or was given back exactly once. *)
Theorem C57_no_leak_no_double_free {V} lim txg nx (os : list (op V)) s xs : legal_limits lim -> 0 <= txg -> Forall legal_op os ->
  run lim (init txg nx) os = Some (s, xs) ->
  Permutation (map a_id (s_freed s ++ all_addrs (s_tree s))) (zrange nx (s_nx s)) /\
  (forall a, In a (all_addrs (s_tree s)) <-> exists e, holds (s_tree s) e /\ e_ptr e = Some a).
Proof.
  intros L T Lo R. destruct (run_inv lim L nx os _ _ (init_inv lim txg nx T) Lo) as (s' & E & (G & _ & _ & I)). rewrite R in E. injection E as <- _.
  split; [exact I|]. intros a. split; [apply addrs_holds|]. intros (e & H & P). eapply holds_addrs; eauto.
Qed.

(** * Examples *)

(** the history used in the examples: some inserts, a flush, some removes in a later transaction *)
Definition ex_lim := Limits 2 5 2 5.
Definition ex_ops : list (op Z) :=
  map (fun k => Insert false (7 * k mod 31) k) (zrange 0 31) ++ [Flush; Tick; Reopen; Remove 5; Remove 6; Insert true 40 400].
Definition ex_st : st Z := match run ex_lim (init 3 100) ex_ops with Some (s, _) => s | None => init 0 0 end.

Example ex_legal_limits : legal_limits ex_lim.
Proof. unfold legal_limits, ex_lim. cbn. lia. Qed.
Example ex_legal_ops : Forall legal_op ex_ops.
Proof. repeat constructor; cbn; lia. Qed.
Example ex_after : after ex_lim ex_st (fst (map_run (fun _ => None) ex_ops)).
Proof.
  exists 3, 100, ex_ops, (snd (map_run (fun _ => None) ex_ops)), (snd (map_run (fun _ => None) ex_ops)).
  split; [lia|]. split; [exact ex_legal_ops|]. split; [vm_compute; reflexivity|apply surjective_pairing].
Qed.
(** the tree has three levels, some of its records were freed and some are still on disk *)
Example ex_nontrivial :
  (t_h (s_tree ex_st), length (s_freed ex_st), length (all_addrs (s_tree ex_st)), s_nx ex_st)
  = (2%nat, 6%nat, 7%nat, 113).
Proof. vm_compute. reflexivity. Qed.
Example ex_flush : (match flush (s_txg ex_st) (s_nx ex_st) (s_tree ex_st) with Some (_, nx) => nx | None => 0 end,
  dirty_nodes (s_tree ex_st)) = (119, 6%nat).
Proof. vm_compute. reflexivity. Qed.
Example ex_range : range_query 10 (s_tree ex_st) (Some (Exc 4)) (Inc 8) = Some [(7, 1); (8, 10)].
Proof. vm_compute. reflexivity. Qed.
Example ex_addresses : (length (addresses Unb (Inc 3) (s_tree ex_st)), addresses (Inc 4) Unb (s_tree ex_st)) = (7%nat, []).
Proof. vm_compute. reflexivity. Qed.

(** * C29: range deletion, what does not hold *)

(** An empty range with both ends excluded makes [range_delete] panic, while every other empty range is a no-op. *)
Theorem C29_empty_open_range_panics_refuted :
  exists lim txg k (t : tree Z), legal_limits lim /\ get t k = Some None /\
    (forall j, in_bounds (Exc k) (Exc k) j -> False) /\ range_delete lim txg (Exc k) (Exc k) t = None.
Proof.
  exists ex_lim, 0, 5, (Tree default_elem 0). split; [exact ex_legal_limits|]. split; [reflexivity|]. split; [|reflexivity].
  intros j [A B]. cbn in *. lia.
Qed.

(** finds a node strictly below [n] that has less than the minimum number of children *)
Fixpoint thin_below (h : nat) lim (n : node Z) : bool :=
  match h, n with
  | S h', Int cs => existsb (fun e => (n_len (e_node e) <? n_min lim (e_node e))%nat || thin_below h' lim (e_node e)) cs
  | _, _ => false
  end.
Lemma thin_below_spec h lim : forall n, thin_below h lim n = true ->
  exists d n', below d n n' /\ d <> O /\ (n_len n' < n_min lim n')%nat.
Proof.
  induction h as [|h IH]; intros [l|cs] H; try discriminate. cbn [thin_below] in H. apply existsb_exists in H. destruct H as (e & I & H).
  apply orb_true_iff in H. destruct H as [H|H].
  - exists 1%nat, (e_node e). split; [econstructor; [exact I|constructor]|]. split; [discriminate|]. apply Nat.ltb_lt. exact H.
  - destruct (IH _ H) as (d & n' & B & D & L). exists (S d), n'. split; [econstructor; eauto|]. split; [discriminate|exact L].
Qed.

(** After a range deletion a node other than the root may have less than the minimum number of children. *)
Theorem C29_range_delete_min_fanout_refuted :
  exists lim (os : list (op Z)) s xs a b t p d n,
    legal_limits lim /\ Forall legal_op os /\ run lim (init 0 0) os = Some (s, xs) /\
    range_delete lim (s_txg s) (Inc a) (Exc b) (s_tree s) = Some (t, p) /\
    below d (e_node (t_root t)) n /\ d <> O /\ (n_len n < n_min lim n)%nat.
Proof.
  set (lim := Limits 2 6 2 6).
  set (os := map (fun k => Insert false k k) (zrange 0 78) ++ map Remove [45; 46; 32; 33; 14; 15; 16]).
  set (r := run lim (init 0 0) os).
  set (s := match r with Some (s, _) => s | None => init 0 0 end).
  set (q := range_delete lim (s_txg s) (Inc 20) (Exc 34) (s_tree s)).
  set (t := match q with Some (t, _) => t | None => s_tree s end).
  assert (H : thin_below 4 lim (e_node (t_root t)) = true) by (vm_compute; reflexivity).
  destruct (thin_below_spec _ _ _ H) as (d & n & B & D & L).
  exists lim, os, s, (match r with Some (_, xs) => xs | None => [] end), 20, 34, t, (match q with Some (_, p) => p | None => [] end), d, n.
  split; [unfold legal_limits; cbn; lia|].
  split. { apply Forall_app. split; [|repeat constructor]. apply Forall_map. apply Forall_forall. intros k Hk. apply in_zrange in Hk. cbn. lia. }
  split; [vm_compute; reflexivity|]. split; [vm_compute; reflexivity|]. auto.
Qed.

Print Assumptions C27_insert_remove_as_map.
Print Assumptions C27_get_as_map.
Print Assumptions C27_last_key_as_map.
Print Assumptions C27_range_as_map.
Print Assumptions C28_leaves_at_same_depth.
Print Assumptions C28_fanout.
Print Assumptions C28_separators.
Print Assumptions C28_created_limits_are_legal.
Print Assumptions C29_empty_open_range_panics_refuted.
Print Assumptions C29_range_delete_min_fanout_refuted.
Print Assumptions C30_flush_cleans.
Print Assumptions C30_flush_of_clean_tree_does_nothing.
Print Assumptions C30_reopened_tree_is_same_map.
Print Assumptions C31_addresses_complete.
Print Assumptions C57_no_leak_no_double_free.
