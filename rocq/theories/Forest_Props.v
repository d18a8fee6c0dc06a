(** C25 and C69: data sets, their names and ids. *)
From Verif Require Import Common FSM_Model ZMap Prop_Model Forest_Model.
From Coq Require Import Sorting.Sorted Permutation.

(** ** What is promised *)

(** The data sets: paths (the root is the empty path) and ids. *)
Definition path := list text.
Definition dsets := list (path * Z).

Fixpoint show (p : path) : text :=
  match p with
  | [] => []
  | [c] => c
  | c :: r => c ++ SLASH :: show r
  end.

Inductive uop := UCreate (p : path) | UDestroy (p : path) | ULookup (p : path) | UMount (p : path) | UUnmount (p : path) | UDropped (id : Z).

Definition op_of (o : uop) : fop :=
  match o with
  | UCreate p => OCreate (show p) | UDestroy p => ODestroy (show p) | ULookup p => OLookup (show p)
  | UMount p => OMount (show p) | UUnmount p => OUnmount (show p) | UDropped id => ODropped id
  end.

Definition upd (m : Z -> option bool) (i : Z) (x : option bool) : Z -> option bool := fun j => if j =? i then x else m j.

(** [parent p q]: [q] is the parent of [p]. *)
Definition parent_of (p q : path) : Prop := exists c, p = q ++ [c].
Definition has (ds : dsets) (p : path) : Prop := exists id, In (p, id) ds.
Definition is_parent (ds : dsets) (p : path) (o : option Z) : Prop :=
  match o with None => p = [] | Some i => exists q, parent_of p q /\ In (q, i) ds end.

Inductive promise (ds : dsets) (m : Z -> option bool) : uop -> fans -> dsets -> (Z -> option bool) -> Prop :=
| p_create p id : ~ has ds p -> (forall q, parent_of p q -> has ds q) -> (forall q, ~ In (q, id) ds) ->
    promise ds m (UCreate p) (AId (FOk id)) ((p, id) :: ds) m
| p_create_exists p : has ds p -> promise ds m (UCreate p) (AId (FErr EEXIST)) ds m
| p_create_orphan p q : parent_of p q -> ~ has ds q -> promise ds m (UCreate p) (AId (FErr ENOENT)) ds m
| p_destroy p id ds' : In (p, id) ds -> (forall q, has ds q -> ~ parent_of q p) -> m id = None ->
    (forall x, In x ds' <-> In x ds /\ x <> (p, id)) -> promise ds m (UDestroy p) (AUnit (FOk tt)) ds' m
| p_destroy_none p : ~ has ds p -> promise ds m (UDestroy p) (AUnit (FErr ENOENT)) ds m
| p_destroy_parent p q : has ds p -> has ds q -> parent_of q p -> promise ds m (UDestroy p) (AUnit (FErr EBUSY)) ds m
| p_destroy_mounted p id b : In (p, id) ds -> m id = Some b -> promise ds m (UDestroy p) (AUnit (FErr EBUSY)) ds m
| p_lookup p id par : In (p, id) ds -> is_parent ds p par -> promise ds m (ULookup p) (ALook (par, Some id)) ds m
| p_lookup_none p : ~ has ds p -> promise ds m (ULookup p) (ALook (None, None)) ds m
| p_mount p id : In (p, id) ds -> m id <> Some true -> promise ds m (UMount p) (AId (FOk id)) ds (upd m id (Some true))
| p_mount_none p : ~ has ds p -> promise ds m (UMount p) (AId (FErr ENOENT)) ds m
| p_mount_busy p id : In (p, id) ds -> m id = Some true -> promise ds m (UMount p) (AId (FErr EBUSY)) ds m
| p_unmount p id : In (p, id) ds -> m id = Some true -> promise ds m (UUnmount p) (AUnit (FOk tt)) ds (upd m id None)
| p_unmount_none p : ~ has ds p -> promise ds m (UUnmount p) (AUnit (FErr ENOENT)) ds m
| p_unmount_not p id : In (p, id) ds -> m id <> Some true -> promise ds m (UUnmount p) (AUnit (FErr EINVAL)) ds m
| p_dropped id : promise ds m (UDropped id) ANone ds (match m id with Some _ => upd m id (Some false) | None => m end).

Inductive promises : dsets -> (Z -> option bool) -> list uop -> list fans -> dsets -> (Z -> option bool) -> Prop :=
| ps_nil ds m : promises ds m [] [] ds m
| ps_cons ds m o a ds' m' os as_ ds'' m'' : promise ds m o a ds' m' -> promises ds' m' os as_ ds'' m'' ->
    promises ds m (o :: os) (a :: as_) ds'' m''.

(** What the code does not get right: a second root, and children of a root that
    does not exist. *)
Definition sane (ds : dsets) (o : uop) : Prop :=
  match o with
  | UCreate [] => ~ has ds []
  | UCreate [_] => has ds []
  | _ => True
  end.

(** The data sets after an operation, given its answer. *)
Definition pdec : forall p q : path, {p = q} + {p <> q} := list_eq_dec (list_eq_dec Z.eq_dec).
Definition next_ds (ds : dsets) (o : uop) (a : fans) : dsets :=
  match o, a with
  | UCreate p, AId (FOk id) => (p, id) :: ds
  | UDestroy p, AUnit (FOk _) => filter (fun x => if pdec (fst x) p then false else true) ds
  | _, _ => ds
  end.
Fixpoint after (ds : dsets) (os : list uop) (as_ : list fans) : dsets :=
  match os, as_ with o :: os, a :: as_ => after (next_ds ds o a) os as_ | _, _ => ds end.

(** Every operation of a history is sane. *)
Fixpoint sane_run (H : text -> Z) (d : db) (ds : dsets) (os : list uop) : Prop :=
  match os with
  | [] => True
  | o :: os => sane ds o /\ forall d' a, fdo H d (op_of o) = Some (d', a) -> sane_run H d' (next_ds ds o a) os
  end.

(** ** Names *)

Definition clean (c : text) : Prop := c <> [] /\ ~ In SLASH c.

Lemma no_slash c : ~ In SLASH c -> existsb (Z.eqb SLASH) c = false.
Proof.
  intros N. destruct (existsb (Z.eqb SLASH) c) eqn:E; [|reflexivity]. exfalso. apply N. apply existsb_exists in E.
  destruct E as (x & Hx & E). apply Z.eqb_eq in E. now subst.
Qed.

Lemma split_clean c : ~ In SLASH c -> split SLASH c = [c].
Proof.
  induction c as [|x c IH]; intros N; [reflexivity|]. cbn [split]. destruct (Z.eqb_spec x SLASH) as [->|]; [exfalso; apply N; now left|].
  rewrite IH; [reflexivity|]. intros Y. apply N. now right.
Qed.

Lemma split_app c s : ~ In SLASH c -> split SLASH (c ++ SLASH :: s) = c :: split SLASH s.
Proof.
  induction c as [|x c IH]; intros N; [reflexivity|]. cbn [split app]. destruct (Z.eqb_spec x SLASH) as [->|]; [exfalso; apply N; now left|].
  rewrite IH; [reflexivity|]. intros Y. apply N. now right.
Qed.

Lemma split_show p : p <> [] -> Forall clean p -> split SLASH (show p) = p.
Proof.
  induction p as [|c p IH]; intros N F; [contradiction|]. inversion F as [|? ? Hc F']; subst. destruct p as [|d p].
  - cbn [show]. apply split_clean, Hc.
  - cbn [show]. rewrite split_app by apply Hc. f_equal. apply IH; [discriminate|exact F'].
Qed.

Lemma show_nil p : Forall clean p -> show p = [] -> p = [].
Proof.
  destruct p as [|c [|d p]]; intros F E; [reflexivity| |].
  - inversion F as [|? ? [Hc _] _]; subst. contradiction.
  - cbn [show] in E. now destruct c.
Qed.

Lemma rsplit_none c : ~ In SLASH c -> rsplit_once SLASH c = None.
Proof.
  induction c as [|x c IH]; intros N; [reflexivity|]. cbn [rsplit_once]. rewrite IH by (intros Y; apply N; now right).
  destruct (Z.eqb_spec x SLASH) as [->|]; [exfalso; apply N; now left|reflexivity].
Qed.

Lemma rsplit_app a c : ~ In SLASH c -> rsplit_once SLASH (a ++ SLASH :: c) = Some (a, c).
Proof.
  intros N. induction a as [|x a IH]; cbn [app rsplit_once].
  - now rewrite rsplit_none, Z.eqb_refl.
  - now rewrite IH.
Qed.

Lemma show_cons d q : q <> [] -> show (d :: q) = d ++ SLASH :: show q.
Proof. destruct q; [contradiction|reflexivity]. Qed.

Lemma show_snoc p c : p <> [] -> show (p ++ [c]) = show p ++ SLASH :: c.
Proof.
  induction p as [|d p IH]; intros N; [contradiction|]. destruct p as [|e p]; [reflexivity|].
  change ((d :: e :: p) ++ [c]) with (d :: (e :: p) ++ [c]).
  rewrite show_cons by discriminate. rewrite IH by discriminate. rewrite (show_cons d (e :: p)) by discriminate. now rewrite <- app_assoc.
Qed.

Lemma last_snoc {A} (l : list A) x d : last (l ++ [x]) d = x.
Proof. induction l as [|y l IH]; [reflexivity|]. cbn [app last]. destruct (l ++ [x]) eqn:E; [destruct l; discriminate|exact IH]. Qed.

Lemma text_eqb_ok a b : text_eqb a b = true <-> a = b.
Proof.
  revert b. induction a as [|x a IH]; intros [|y b]; cbn [text_eqb]; split; try easy.
  - intros E. apply andb_true_iff in E. destruct E as [E1 E2]. apply Z.eqb_eq in E1. apply IH in E2. congruence.
  - intros [= -> ->]. now rewrite Z.eqb_refl, (proj2 (IH b) eq_refl).
Qed.

(** ** The forest represents the data sets *)

Lemma fk_inj a b i j : 0 <= i < 2 ^ 64 -> 0 <= j < 2 ^ 64 -> fk a i = fk b j -> a = b /\ i = j.
Proof. unfold fk. intros. lia. Qed.

Section C25.
Context (H : text -> Z) (N : text -> Prop).
Definition h (c : text) : Z := Z.land (H c) (2 ^ 56 - 1).
(** Names are not empty, contain no slash, and have different hashes, not zero. *)
Hypothesis NC : forall c, N c -> clean c.
Hypothesis NZ : forall c, N c -> h c <> 0.
Hypothesis NI : forall c d, N c -> N d -> h c = h d -> c = d.

Definition good (o : uop) : Prop :=
  match o with UCreate p | UDestroy p | ULookup p | UMount p | UUnmount p => Forall N p | UDropped _ => True end.

Lemma h_range c : N c -> 0 < h c < 2 ^ 56.
Proof.
  intros Nc. pose proof (NZ c Nc). unfold h in *. change (2 ^ 56 - 1) with (Z.ones 56) in *. rewrite Z.land_ones in * by lia.
  pose proof (Z.mod_pos_bound (H c) (2 ^ 56)). lia.
Qed.

Lemma tree_ent_ok p c : N c -> tree_ent H p c = Some (fk p (h c)).
Proof.
  intros Nc. unfold tree_ent. rewrite no_slash by apply (NC c Nc). fold (h c). pose proof (NZ c Nc).
  destruct (Z.eqb_spec (h c) 0); [contradiction|reflexivity].
Qed.

Record Rel (n : Z) (f : forest) (ds : dsets) : Prop := {
  r_ok : zm_ok f;
  r_key : forall k v, zm_get k f = Some v ->
    (exists p id par tod, In (p, id) ds /\ k = fk id 0 /\ v = FTree par tod) \/
    (exists p c pid id, In (p, pid) ds /\ In (p ++ [c], id) ds /\ k = fk pid (h c) /\ v = FEnt id c);
  r_tree : forall p id, In (p, id) ds -> exists par tod, zm_get (fk id 0) f = Some (FTree par tod) /\ is_parent ds p par;
  r_ent : forall p c pid id, In (p, pid) ds -> In (p ++ [c], id) ds -> zm_get (fk pid (h c)) f = Some (FEnt id c);
  r_path : forall p i j, In (p, i) ds -> In (p, j) ds -> i = j;
  r_id : forall p q i, In (p, i) ds -> In (q, i) ds -> p = q;
  r_good : forall p i, In (p, i) ds -> Forall N p;
  r_up : forall p c i, In (p ++ [c], i) ds -> has ds p;
  r_root : forall i, In ([], i) ds -> i = 0;
  r_range : forall p i, In (p, i) ds -> 0 <= i < n
}.

Lemma good_snoc p c : Forall N (p ++ [c]) -> Forall N p /\ N c.
Proof. intros F. apply Forall_app in F. destruct F as [F1 F2]. inversion F2; subst. auto. Qed.

Lemma clean_path p : Forall N p -> Forall clean p.
Proof. intros F. eapply Forall_impl; [|exact F]. exact NC. Qed.

(** Walking down from a data set. *)
Lemma walk n f ds : Rel n f ds -> forall r p id par, In (p, id) ds -> Forall N r ->
  match lookup_loop H f par id r with
  | None => False
  | Some (par', Some j) => In (p ++ r, j) ds /\ (r = [] -> par' = par) /\ (r <> [] -> is_parent ds (p ++ r) par')
  | Some (par', None) => ~ has ds (p ++ r) /\ par' = None
  end.
Proof.
  intros R. induction r as [|c r IH]; intros p id par Hin F.
  - cbn [lookup_loop]. rewrite app_nil_r. split; [exact Hin|]. split; [auto|]. intros X. contradiction.
  - inversion F as [|? ? Nc F']; subst. cbn [lookup_loop]. rewrite tree_ent_ok by exact Nc. cbn [obind].
    destruct (zm_get (fk id (h c)) f) as [v|] eqn:E.
    + pose proof (h_range c Nc). destruct (r_key _ _ _ R _ _ E) as [(q & j & par1 & tod & _ & K & _)|(q & d & pid & j & H1 & H2 & K & ->)].
      { apply fk_inj in K; lia. }
      pose proof (r_good _ _ _ R _ _ H2) as G. apply good_snoc in G. destruct G as [_ Nd]. pose proof (h_range d Nd).
      apply fk_inj in K; [|lia|lia]. destruct K as [<- K]. apply NI in K; [|exact Nc|exact Nd]. subst d.
      pose proof (r_id _ _ _ R _ _ _ Hin H1) as ->. rewrite (proj2 (text_eqb_ok c c) eq_refl).
      specialize (IH (q ++ [c]) j (Some id) H2 F'). rewrite <- app_assoc in IH. cbn [app] in IH.
      destruct (lookup_loop H f (Some id) j r) as [[par' [k|]]|]; [|exact IH|exact IH].
      destruct IH as (I1 & I2 & I3). split; [exact I1|]. split; [discriminate|]. intros _. destruct r as [|d r]; [|apply I3; discriminate].
      rewrite I2 by reflexivity. exists q. split; [exists c; reflexivity|exact Hin].
    + split; [|reflexivity]. intros [j Hj].
      assert (U : forall s q, has ds (q ++ s) -> has ds q).
      { intros s. induction s as [|d s IHs] using rev_ind; intros q Hq; [now rewrite app_nil_r in Hq|].
        destruct Hq as [k Hk]. rewrite app_assoc in Hk. apply (r_up _ _ _ R) in Hk. auto. }
      assert (X : has ds ((p ++ [c]) ++ r)) by (exists j; rewrite <- app_assoc; exact Hj). apply U in X. destruct X as [k Hk].
      rewrite (r_ent _ _ _ R _ _ _ _ Hin Hk) in E. discriminate.
Qed.

Lemma root_or_empty n f ds : Rel n f ds -> has ds [] \/ ds = [] /\ f = [].
Proof.
  intros R. destruct ds as [|[p i] ds'] eqn:E.
  - right. split; [reflexivity|]. destruct f as [|[k v] f']; [reflexivity|]. exfalso.
    destruct (r_key _ _ _ R k v) as [(p & id & _ & _ & [] & _)|(p & c & pid & id & [] & _)].
    cbn [zm_get]. now rewrite Z.eqb_refl.
  - left. rewrite <- E in *. assert (X : has ds p) by (exists i; subst; now left). clear E.
    assert (U : forall s q, has ds (q ++ s) -> has ds q).
    { intros s. induction s as [|d s IHs] using rev_ind; intros q Hq; [now rewrite app_nil_r in Hq|].
      destruct Hq as [k Hk]. rewrite app_assoc in Hk. apply (r_up _ _ _ R) in Hk. auto. }
    apply (U p []). exact X.
Qed.

(** What a lookup finds. *)
Lemma lookup_ok n f ds p : Rel n f ds -> Forall N p -> exists par oid, lookup H f (show p) = Some (par, oid) /\
  match oid with Some id => In (p, id) ds /\ is_parent ds p par | None => ~ has ds p /\ par = None end.
Proof.
  intros R F. destruct (list_eq_dec (list_eq_dec Z.eq_dec) p []) as [->|NE].
  - cbn [show lookup]. destruct (zm_get (fk 0 0) f) as [v|] eqn:E.
    + destruct (r_key _ _ _ R _ _ E) as [(q & j & par & tod & H1 & K & ->)|(q & c & pid & j & _ & H2 & K & _)].
      * apply fk_inj in K; [|lia|lia]. destruct K as [<- _]. exists None, (Some 0). split; [reflexivity|].
        destruct (root_or_empty _ _ _ R) as [[i Hi]|[-> _]]; [|destruct H1]. pose proof (r_root _ _ _ R _ Hi). subst i.
        split; [exact Hi|reflexivity].
      * pose proof (r_good _ _ _ R _ _ H2) as G. apply good_snoc in G. destruct G as [_ Nc]. pose proof (h_range c Nc). apply fk_inj in K; lia.
    + exists None, None. split; [reflexivity|]. split; [|reflexivity]. intros [i Hi]. pose proof (r_root _ _ _ R _ Hi). subst i.
      destruct (r_tree _ _ _ R _ _ Hi) as (par & tod & E' & _). congruence.
  - unfold lookup. destruct (show p) as [|x s] eqn:E.
    { apply show_nil in E; [contradiction|now apply clean_path]. }
    rewrite <- E, split_show by (assumption || now apply clean_path). clear E x s.
    destruct (root_or_empty _ _ _ R) as [[i Hi]|[-> ->]].
    + pose proof (r_root _ _ _ R _ Hi). subst i. pose proof (walk _ _ _ R p [] 0 None Hi F) as W.
      destruct (lookup_loop H f None 0 p) as [[par [j|]]|]; [| |contradiction].
      * exists par, (Some j). split; [reflexivity|]. destruct W as (W1 & _ & W3). auto.
      * exists par, None. split; [reflexivity|]. exact W.
    + destruct p as [|c p]; [contradiction|]. inversion F as [|? ? Nc _]; subst. cbn [lookup_loop]. rewrite tree_ent_ok by exact Nc. cbn [obind zm_get].
      exists None, None. split; [reflexivity|]. split; [|reflexivity]. intros [i []].
Qed.

(** *** The last key *)
Lemma last_key_ok (f : forest) : zm_ok f -> f <> [] ->
  exists k, last_key f = Some k /\ (exists v, zm_get k f = Some v) /\ forall j v, zm_get j f = Some v -> j <= k.
Proof.
  intros O NE. unfold last_key. destruct (exists_last NE) as (g & [k v] & ->). rewrite rev_app_distr. cbn [rev app].
  exists k. split; [reflexivity|]. split; [exists v; apply zm_in_get; [exact O|apply in_or_app; right; now left]|].
  intros j w Hj. apply zm_get_in in Hj. apply in_app_or in Hj. destruct Hj as [Hj|[[= <- <-]|[]]]; [|lia].
  unfold zm_ok in O. rewrite map_app in O. cbn [map fst] in O. clear - O Hj.
  assert (X : forall l, StronglySorted Z.lt (l ++ [k]) -> forall x, In x l -> x < k).
  { intros l. induction l as [|y l IH]; intros S x Hx; [destruct Hx|]. cbn [app] in S. inversion S as [|? ? S' F]; subst.
    destruct Hx as [<-|Hx]; [|now apply IH]. rewrite Forall_forall in F. apply F. apply in_or_app. right. now left. }
  specialize (X _ O j). assert (In j (map fst g)) by (apply in_map_iff; exists (j, w); auto). apply X in H. lia.
Qed.

Lemma fresh_id n f ds : Rel n f ds -> n < 2 ^ 64 -> ds <> [] ->
  exists k, last_key f = Some k /\ next_id (k / 2 ^ 64) = Some (k / 2 ^ 64 + 1) /\ 0 <= k / 2 ^ 64 + 1 <= n /\
    forall p i, In (p, i) ds -> i < k / 2 ^ 64 + 1.
Proof.
  intros R Hn NE. assert (NF : f <> []).
  { destruct ds as [|[p i] ds']; [contradiction|]. destruct (r_tree _ _ _ R p i ltac:(now left)) as (par & tod & E & _).
    intros ->. discriminate. }
  destruct (last_key_ok f (r_ok _ _ _ R) NF) as (k & E & (v & G) & M). exists k. split; [exact E|].
  assert (D : exists p i, In (p, i) ds /\ k / 2 ^ 64 = i).
  { destruct (r_key _ _ _ R _ _ G) as [(p & id & par & tod & H1 & -> & _)|(p & c & pid & id & H1 & H2 & -> & _)].
    - exists p, id. split; [exact H1|]. unfold fk. rewrite Z.div_add_l by lia. change (0 / 2 ^ 64) with 0. lia.
    - exists p, pid. split; [exact H1|]. unfold fk. rewrite Z.div_add_l by lia.
      pose proof (r_good _ _ _ R _ _ H2) as Gd. apply good_snoc in Gd. pose proof (h_range c (proj2 Gd)). rewrite (Z.div_small (h c)); lia. }
  destruct D as (p & i & Hi & Di). pose proof (r_range _ _ _ R _ _ Hi) as Ri. rewrite Di. unfold next_id.
  destruct (Z.ltb_spec (i + 1) (2 ^ 64)); [|lia]. split; [reflexivity|]. split; [lia|]. intros q j Hj.
  destruct (r_tree _ _ _ R _ _ Hj) as (par & tod & Ej & _). apply M in Ej. unfold fk in Ej. lia.
Qed.

(** *** Creating *)
Lemma insert_ok n f ds q c pid r : Rel n f ds -> n < 2 ^ 64 -> In (q, pid) ds -> Forall N (q ++ [c]) ->
  exists f' res, insert_tree H f (Some pid) c r = Some (f', res) /\
    (res = FErr EEXIST /\ has ds (q ++ [c]) /\ f' = f \/
     exists id, res = FOk id /\ ~ has ds (q ++ [c]) /\ (forall p, ~ In (p, id) ds) /\ Rel (n + 1) f' ((q ++ [c], id) :: ds) /\
       zm_get (fk id 0) f' = Some (FTree (Some pid) r) /\
       forall j, j <> id -> zm_get (fk j 0) f' = zm_get (fk j 0) f).
Proof.
  intros R Hn Hq G. destruct (good_snoc _ _ G) as [Gq Nc]. pose proof (h_range c Nc) as Hc.
  assert (NE : ds <> []) by (intros ->; destruct Hq).
  destruct (fresh_id n f ds R Hn NE) as (k & EL & EN & Rid & Fr). set (id := k / 2 ^ 64 + 1) in *.
  unfold insert_tree. rewrite EL. cbn [obind]. rewrite EN. cbn [obind].
  assert (NT : zm_get (fk id 0) f = None).
  { destruct (zm_get (fk id 0) f) as [v|] eqn:E; [|reflexivity]. exfalso.
    destruct (r_key _ _ _ R _ _ E) as [(p & i & par & tod & H1 & K & _)|(p & d & pp & i & H1 & H2 & K & _)].
    - apply fk_inj in K; [|lia|lia]. destruct K as [K _]. apply Fr in H1. lia.
    - pose proof (r_good _ _ _ R _ _ H2) as Gd. apply good_snoc in Gd. pose proof (h_range d (proj2 Gd)). apply fk_inj in K; lia. }
  rewrite NT, tree_ent_ok by exact Nc. cbn [obind].
  set (f1 := zm_set (fk id 0) (FTree (Some pid) r) f). set (ek := fk pid (h c)).
  assert (KE : ek <> fk id 0) by (unfold ek; intros K; apply fk_inj in K; lia).
  assert (O1 : zm_ok f1) by (apply zm_ok_set, R).
  assert (G1 : forall j, zm_get j f1 = if j =? fk id 0 then Some (FTree (Some pid) r) else zm_get j f) by (intros j; apply zm_get_set, R).
  rewrite (G1 ek). destruct (Z.eqb_spec ek (fk id 0)); [contradiction|].
  set (f2 := zm_set ek (FEnt id c) f1). assert (O2 : zm_ok f2) by (apply zm_ok_set, O1).
  assert (G2 : forall j, zm_get j f2 = if j =? ek then Some (FEnt id c) else zm_get j f1) by (intros j; apply zm_get_set, O1).
  destruct (zm_get ek f) as [oe|] eqn:EE.
  - rewrite (G2 (fk id 0)), (G1 (fk id 0)), Z.eqb_refl. destruct (Z.eqb_spec (fk id 0) ek); [congruence|].
    eexists _, _. split; [reflexivity|]. left. split; [reflexivity|]. split.
    + destruct (r_key _ _ _ R _ _ EE) as [(p & i & par & tod & H1 & K & _)|(p & d & pp & i & H1 & H2 & K & _)].
      * unfold ek in K. apply fk_inj in K; lia.
      * pose proof (r_good _ _ _ R _ _ H2) as Gd. apply good_snoc in Gd. pose proof (h_range d (proj2 Gd)). unfold ek in K. apply fk_inj in K; [|lia|lia].
        destruct K as [<- K]. apply NI in K; [|exact Nc|apply Gd]. subst d. pose proof (r_id _ _ _ R _ _ _ Hq H1) as ->. exists i. exact H2.
    + apply zm_ext; [apply zm_ok_set, zm_ok_del, O2|apply R|]. intros j. rewrite zm_get_set, zm_get_del, G2, G1 by (try apply zm_ok_del; exact O2).
      destruct (Z.eqb_spec j ek) as [->|]; [congruence|]. destruct (Z.eqb_spec j (fk id 0)) as [->|]; congruence.
  - eexists _, _. split; [reflexivity|]. right. exists id. split; [reflexivity|]. fold ek. fold f2.
    assert (NH : ~ has ds (q ++ [c])) by (intros [i Hi]; pose proof (r_ent _ _ _ R _ _ _ _ Hq Hi) as X; fold ek in X; congruence).
    split; [exact NH|]. split; [intros p Hp; apply Fr in Hp; lia|].
    assert (GG : forall j, zm_get j f2 = if j =? ek then Some (FEnt id c) else if j =? fk id 0 then Some (FTree (Some pid) r) else zm_get j f).
    { intros j. rewrite G2, G1. reflexivity. }
    assert (KT : forall p i, In (p, i) ds -> fk i 0 <> ek /\ fk i 0 <> fk id 0).
    { intros p i Hi. unfold ek. pose proof (Fr _ _ Hi). split; intros K; apply fk_inj in K; lia. }
    split; [constructor|split; [|]].
    + exact O2.
    + intros j v E. rewrite GG in E. destruct (Z.eqb_spec j ek) as [->|].
      { injection E as <-. right. exists q, c, pid, id. split; [now right|]. split; [now left|]. auto. }
      destruct (Z.eqb_spec j (fk id 0)) as [->|].
      { injection E as <-. left. exists (q ++ [c]), id, (Some pid), r. split; [now left|]. auto. }
      destruct (r_key _ _ _ R _ _ E) as [(p & i & par & tod & H1 & K & V)|(p & d & pp & i & H1 & H2 & K & V)].
      * left. exists p, i, par, tod. split; [now right|]. auto.
      * right. exists p, d, pp, i. split; [now right|]. split; [now right|]. auto.
    + intros p i [[= <- <-]|Hi].
      * exists (Some pid), r. rewrite GG. destruct (Z.eqb_spec (fk id 0) ek); [congruence|]. rewrite Z.eqb_refl. split; [reflexivity|].
        exists q. split; [exists c; reflexivity|now right].
      * destruct (r_tree _ _ _ R _ _ Hi) as (par & tod & E & P). exists par, tod. destruct (KT _ _ Hi) as [K1 K2]. rewrite GG.
        destruct (Z.eqb_spec (fk i 0) ek); [contradiction|]. destruct (Z.eqb_spec (fk i 0) (fk id 0)); [contradiction|]. split; [exact E|].
        destruct par as [pp|]; [|exact P]. destruct P as (q' & P1 & P2). exists q'. split; [exact P1|now right].
    + intros p d pp i [E1|Hp] [E2|Hi].
      * injection E1 as <- <-. injection E2 as E2 _. exfalso. clear - E2. apply (f_equal (@length _)) in E2. rewrite !app_length in E2. cbn in E2. lia.
      * injection E1 as <- <-. exfalso. apply (r_up _ _ _ R) in Hi. contradiction.
      * injection E2 as E2 <-. apply app_inj_tail in E2. destruct E2 as [<- <-]. pose proof (r_path _ _ _ R _ _ _ Hq Hp) as <-.
        rewrite GG. now rewrite Z.eqb_refl.
      * pose proof (r_ent _ _ _ R _ _ _ _ Hp Hi) as E. rewrite GG. destruct (Z.eqb_spec (fk pp (h d)) ek) as [X|]; [congruence|].
        pose proof (r_good _ _ _ R _ _ Hi) as Gd. apply good_snoc in Gd. pose proof (h_range d (proj2 Gd)).
        destruct (Z.eqb_spec (fk pp (h d)) (fk id 0)) as [X|]; [apply fk_inj in X; lia|exact E].
    + intros p i j [E1|Hi] [E2|Hj].
      * congruence.
      * injection E1 as <- <-. exfalso. apply NH. eexists; eauto.
      * injection E2 as <- <-. exfalso. apply NH. eexists; eauto.
      * eapply (r_path _ _ _ R); eauto.
    + intros p p' i [E1|Hi] [E2|Hj].
      * congruence.
      * injection E1 as <- <-. exfalso. apply Fr in Hj. lia.
      * injection E2 as <- <-. exfalso. apply Fr in Hi. lia.
      * eapply (r_id _ _ _ R); eauto.
    + intros p i [[= <- <-]|Hi]; [exact G|]. eapply (r_good _ _ _ R); eauto.
    + intros p d i [E1|Hi].
      * injection E1 as E1 _. apply app_inj_tail in E1. destruct E1 as [<- <-]. exists pid. now right.
      * apply (r_up _ _ _ R) in Hi. destruct Hi as [j Hj]. exists j. now right.
    + intros i [E1|Hi]; [|eapply (r_root _ _ _ R); eauto]. injection E1 as E1 _. exfalso. destruct q; discriminate.
    + intros p i [[= <- <-]|Hi]; [lia|]. pose proof (r_range _ _ _ R _ _ Hi). lia.
    + rewrite GG. destruct (Z.eqb_spec (fk id 0) ek); [congruence|]. now rewrite Z.eqb_refl.
    + intros j Hj. rewrite GG. 
      destruct (Z.eqb_spec (fk j 0) ek) as [X|]; [unfold ek in X; apply fk_inj in X; lia|].
      destruct (Z.eqb_spec (fk j 0) (fk id 0)) as [X|]; [apply fk_inj in X; lia|reflexivity].
Qed.

Lemma create_root n r : 0 <= n -> Rel n [] [] ->
  insert_tree H [] None [] r = Some ([(fk 0 0, FTree None r)], FOk 0) /\ Rel (n + 1) [(fk 0 0, FTree None r)] [([], 0)].
Proof.
  intros Hn _. split; [reflexivity|]. constructor.
  - apply zm_ok_cons. split; [apply zm_ok_nil|constructor].
  - intros k v E. cbn [zm_get] in E. destruct (Z.eqb_spec k (fk 0 0)) as [->|]; [|discriminate]. injection E as <-.
    left. exists [], 0, None, r. split; [now left|]. auto.
  - intros p id [[= <- <-]|[]]. exists None, r. split; reflexivity.
  - intros p c pid id _ [E|[]]. injection E as E _. destruct p; discriminate.
  - intros p i j [[= <- <-]|[]] [[= <-]|[]]. reflexivity.
  - intros p q i [[= <- <-]|[]] [[= <-]|[]]. reflexivity.
  - intros p i [[= <- <-]|[]]. constructor.
  - intros p c i [E|[]]. injection E as E _. destruct p; discriminate.
  - intros i [[= <-]|[]]. reflexivity.
  - intros p i [[= <- <-]|[]]. lia.
Qed.

(** *** Destroying *)
Lemma children_ok n f ds p id o : Rel n f ds -> n < 2 ^ 64 -> In (p, id) ds -> exists l, tree_ent_range id o f = Some l /\ zm_ok l /\
  forall k v, In (k, v) l <-> exists c i, In (p ++ [c], i) ds /\ k = fk id (h c) /\ v = FEnt i c /\ o <= h c.
Proof.
  intros R Hn Hp. pose proof (r_range _ _ _ R _ _ Hp) as Ri. unfold tree_ent_range, next_id.
  destruct (Z.ltb_spec (id + 1) (2 ^ 64)); [|lia]. cbn [obind]. eexists. split; [reflexivity|]. split; [apply zm_ok_filter, R|].
  intros k v. rewrite filter_In. cbn [fst]. split.
  - intros [Hin C]. apply andb_true_iff in C. destruct C as [C1 C2].
    apply (zm_in_get _ _ _ (r_ok _ _ _ R)) in Hin.
    destruct (r_key _ _ _ R _ _ Hin) as [(q & i & par & tod & H1 & -> & _)|(q & c & pid & i & H1 & H2 & -> & ->)].
    + unfold fk in *. lia.
    + pose proof (r_good _ _ _ R _ _ H2) as G. apply good_snoc in G. pose proof (h_range c (proj2 G)).
      assert (pid = id) by (unfold fk in *; lia). subst pid. pose proof (r_id _ _ _ R _ _ _ Hp H1) as ->.
      exists c, i. split; [exact H2|]. split; [reflexivity|]. split; [reflexivity|]. unfold fk in *. lia.
  - intros (c & i & Hi & -> & -> & Ho). pose proof (r_good _ _ _ R _ _ Hi) as G. apply good_snoc in G. pose proof (h_range c (proj2 G)).
    split; [apply zm_get_in; eapply (r_ent _ _ _ R); eauto|]. apply andb_true_iff. unfold fk. lia.
Qed.

Lemma parent_unique ds p a b q : parent_of p q -> is_parent ds p a -> In (q, b) ds ->
  (forall x i j, In (x, i) ds -> In (x, j) ds -> i = j) -> a = Some b.
Proof.
  intros [c ->] P Hb U. destruct a as [a|]; cbn [is_parent] in P; [|destruct q; discriminate].
  destruct P as (q' & [c' E] & Ha). apply app_inj_tail in E. destruct E as [-> _]. f_equal. eapply U; eauto.
Qed.

Definition xdec (x y : path * Z) : {x = y} + {x <> y}.
Proof. decide equality; [apply Z.eq_dec|apply (list_eq_dec (list_eq_dec Z.eq_dec))]. Defined.

Lemma unlink_ok n f ds p id par : Rel n f ds -> n < 2 ^ 64 -> Forall N p -> In (p, id) ds -> is_parent ds p par ->
  exists f' res, unlink H f par id (last (split SLASH (show p)) []) = Some (f', res) /\
    (res = FErr EBUSY /\ f' = f /\ (exists q, has ds q /\ parent_of q p) \/
     res = FOk tt /\ (forall q, has ds q -> ~ parent_of q p) /\ Rel n f' (remove xdec (p, id) ds) /\
       forall j, j <> id -> zm_get (fk j 0) f' = zm_get (fk j 0) f).
Proof.
  intros R Hn F Hp P.
  assert (L : last (split SLASH (show p)) [] = last p []).
  { destruct (list_eq_dec (list_eq_dec Z.eq_dec) p []) as [->|NE]; [reflexivity|]. now rewrite split_show by (assumption || now apply clean_path). }
  rewrite L. clear L. set (name := last p []).
  assert (B : existsb (Z.eqb SLASH) name = false /\
              negb (xorb (match par with Some _ => true | None => false end) (match name with [] => true | _ => false end)) = false).
  { destruct par as [pid|]; cbn [is_parent] in P.
    - destruct P as (q & [c ->] & Hq). unfold name. rewrite last_snoc. apply good_snoc in F. destruct (NC c (proj2 F)) as [C1 C2].
      split; [now apply no_slash|]. destruct c; [contradiction|reflexivity].
    - subst p. split; reflexivity. }
  unfold unlink. destruct B as [-> ->]. destruct (children_ok n f ds p id 0 R Hn Hp) as (l & -> & _ & HL). cbn [obind].
  destruct l as [|[k v] l].
  2:{ eexists _, _. split; [reflexivity|]. left. split; [reflexivity|]. split; [reflexivity|].
      destruct (proj1 (HL k v) ltac:(now left)) as (c & i & Hi & _). exists (p ++ [c]). split; [eexists; eauto|exists c; reflexivity]. }
  assert (NCh : forall q, has ds q -> ~ parent_of q p).
  { intros q [i Hi] [c ->]. pose proof (r_good _ _ _ R _ _ Hi) as G. apply good_snoc in G. pose proof (h_range c (proj2 G)).
    apply (proj2 (HL (fk id (h c)) (FEnt i c))). exists c, i. split; [exact Hi|]. split; [reflexivity|]. split; [reflexivity|lia]. }
  clear HL.
  (* both cases delete the same keys *)
  set (f1 := zm_del (fk id 0) f).
  assert (O1 : zm_ok f1) by apply zm_ok_del, R.
  assert (X : exists f', (match par with Some pp => let* ekey := tree_ent H pp name in Some (zm_del ekey f1, FOk tt) | None => Some (f1, FOk tt) end) = Some (f', FOk tt) /\
     zm_ok f' /\ forall j, zm_get j f' = if (j =? fk id 0) || (match par with Some pp => j =? fk pp (h name) | None => false end) then None else zm_get j f).
  { destruct par as [pid|]; cbn [is_parent] in P.
    - destruct P as (q & [c ->] & Hq). unfold name. rewrite last_snoc. rewrite tree_ent_ok by (apply good_snoc in F; apply F). cbn [obind].
      eexists. split; [reflexivity|]. split; [apply zm_ok_del, O1|]. intros j. rewrite zm_get_del by exact O1. unfold f1. rewrite zm_get_del by apply R.
      destruct (j =? fk id 0), (j =? fk pid (h c)); reflexivity.
    - eexists. split; [reflexivity|]. split; [exact O1|]. intros j. unfold f1. rewrite zm_get_del by apply R. now destruct (j =? fk id 0). }
  destruct X as (f' & -> & O' & GG). eexists _, _. split; [reflexivity|]. right. split; [reflexivity|]. split; [exact NCh|].
  assert (IR : forall x, In x (remove xdec (p, id) ds) <-> In x ds /\ x <> (p, id)).
  { intros x. split; [apply in_remove|]. intros [A B]. now apply in_in_remove. }
  assert (KE : forall j o, 0 <= o < 2 ^ 64 -> (match par with Some pp => fk j o =? fk pp (h name) | None => false end) = true ->
            exists q pp, p = q ++ [name] /\ par = Some pp /\ In (q, pp) ds /\ j = pp /\ o = h name /\ N name).
  { intros j o Ho E. destruct par as [pp|]; [|discriminate]. cbn [is_parent] in P. destruct P as (q & [c ->] & Hq). unfold name in *. rewrite last_snoc in *.
    apply Z.eqb_eq in E. apply good_snoc in F. pose proof (h_range c (proj2 F)). apply fk_inj in E; [|lia|lia].
    exists q, pp. destruct E as [-> ->]. split; [reflexivity|]. split; [reflexivity|]. split; [exact Hq|]. split; [reflexivity|]. split; [reflexivity|]. apply F. }
  assert (EL : name = last p []) by reflexivity. clearbody name.
  split.
  2:{ intros j Hj. rewrite GG. destruct (Z.eqb_spec (fk j 0) (fk id 0)) as [E|]; [apply fk_inj in E; lia|]. cbn [orb].
      destruct (match par with Some pp => fk j 0 =? fk pp (h name) | None => false end) eqn:E; [|reflexivity].
      apply KE in E; [|lia]. destruct E as (q & pp & _ & _ & _ & _ & E & Nn). pose proof (h_range name Nn). lia. }
  constructor.
  - exact O'.
  - intros k v E. rewrite GG in E. destruct (Z.eqb_spec k (fk id 0)) as [|K1]; [discriminate|]. cbn [orb] in E.
    destruct (match par with Some pp => k =? fk pp (h name) | None => false end) eqn:K2; [discriminate|].
    destruct (r_key _ _ _ R _ _ E) as [(q & i & par1 & tod & H1 & K & V)|(q & c & pid & i & H1 & H2 & K & V)].
    + left. exists q, i, par1, tod. split; [|auto]. apply IR. split; [exact H1|]. intros [= -> ->]. contradiction.
    + right. exists q, c, pid, i. split; [apply IR; split; [exact H1|]|].
      { intros [= -> ->]. apply (NCh (p ++ [c])); [eexists; eauto|exists c; reflexivity]. }
      split; [apply IR; split; [exact H2|]|auto]. intros E2. injection E2 as E2 ->. subst k.
      assert (EP : par = Some pid) by (eapply (parent_unique ds p); [exists c; symmetry; exact E2|exact P|exact H1|apply R]).
      subst par. assert (EN : name = c) by (rewrite EL, <- E2; apply last_snoc). rewrite EN, Z.eqb_refl in K2. discriminate.
  - intros q i Hi. apply IR in Hi. destruct Hi as [Hi Ne]. destruct (r_tree _ _ _ R _ _ Hi) as (par1 & tod & E & P1).
    exists par1, tod. rewrite GG. destruct (Z.eqb_spec (fk i 0) (fk id 0)) as [K|]; [exfalso|].
    { apply fk_inj in K; [|lia|lia]. destruct K as [-> _]. apply Ne. f_equal. eapply (r_id _ _ _ R); eauto. }
    cbn [orb]. destruct (match par with Some pp => fk i 0 =? fk pp (h name) | None => false end) eqn:K2.
    { apply KE in K2; [|lia]. destruct K2 as (? & ? & _ & _ & _ & _ & K2 & Nn). pose proof (h_range name Nn). lia. }
    split; [exact E|]. destruct par1 as [pp|]; [|exact P1]. destruct P1 as (q' & Q1 & Q2). exists q'. split; [exact Q1|].
    apply IR. split; [exact Q2|]. intros [= -> ->]. apply (NCh q); [eexists; eauto|exact Q1].
  - intros q c pid i Hq Hi. apply IR in Hq, Hi. destruct Hq as [Hq Nq], Hi as [Hi Ni]. pose proof (r_ent _ _ _ R _ _ _ _ Hq Hi) as E.
    pose proof (r_good _ _ _ R _ _ Hi) as G. apply good_snoc in G. pose proof (h_range c (proj2 G)).
    rewrite GG. destruct (Z.eqb_spec (fk pid (h c)) (fk id 0)) as [K|]; [apply fk_inj in K; lia|]. cbn [orb].
    destruct (match par with Some pp => fk pid (h c) =? fk pp (h name) | None => false end) eqn:K2; [|exact E]. exfalso.
    apply KE in K2; [|lia]. destruct K2 as (q' & pp & -> & _ & Hq' & -> & K2 & Nn). apply NI in K2; [|apply G|exact Nn]. subst c.
    pose proof (r_id _ _ _ R _ _ _ Hq Hq') as ->. apply Ni. f_equal. eapply (r_path _ _ _ R); eauto.
  - intros q i j Hi Hj. apply IR in Hi, Hj. eapply (r_path _ _ _ R); [apply Hi|apply Hj].
  - intros q q' i Hi Hj. apply IR in Hi, Hj. eapply (r_id _ _ _ R); [apply Hi|apply Hj].
  - intros q i Hi. apply IR in Hi. eapply (r_good _ _ _ R). apply Hi.
  - intros q c i Hi. apply IR in Hi. destruct Hi as [Hi _]. destruct (r_up _ _ _ R _ _ _ Hi) as [j Hj]. exists j. apply IR. split; [exact Hj|].
    intros [= -> ->]. apply (NCh (p ++ [c])); [eexists; eauto|exists c; reflexivity].
  - intros i Hi. apply IR in Hi. eapply (r_root _ _ _ R). apply Hi.
  - intros q i Hi. apply IR in Hi. eapply (r_range _ _ _ R). apply Hi.
Qed.

(** ** Histories *)

Definition failed (a : fans) : Prop := match a with AId (FErr _) | AUnit (FErr _) => True | _ => False end.
Definition leak (a : fans) : Z := match a with AId (FErr EEXIST) => 1 | _ => 0 end.
Definition leaks (l : list fans) : Z := fold_right (fun a s => leak a + s) 0 l.

Record DRel (n : Z) (d : db) (ds : dsets) (m : Z -> option bool) (e : Z) : Prop := {
  d_rel : Rel n (df d) ds;
  d_mok : zm_ok (mounts d);
  d_m : forall i, zm_get i (mounts d) = m i;
  d_nodup : NoDup (recs d);
  d_next : forall r, In r (recs d) -> r < nextr d;
  d_tod : forall p id par tod, In (p, id) ds -> zm_get (fk id 0) (df d) = Some (FTree par tod) -> In tod (recs d);
  d_inj : forall p id par tod p' id' par', In (p, id) ds -> In (p', id') ds ->
    zm_get (fk id 0) (df d) = Some (FTree par tod) -> zm_get (fk id' 0) (df d) = Some (FTree par' tod) -> id = id';
  d_ds : NoDup ds;
  d_len : zlen (recs d) = zlen ds + e
}.

Lemma Rel_mono n n' f ds : n <= n' -> Rel n f ds -> Rel n' f ds.
Proof. intros L R. destruct R. constructor; auto. intros p i Hi. pose proof (r_range0 _ _ Hi). lia. Qed.

Lemma DRel_same n d ds m e : DRel n d ds m e -> DRel (n + 1) d ds m (e + 0).
Proof. intros R. destruct R. constructor; auto; [eapply Rel_mono; [|eassumption]; lia|lia]. Qed.

Lemma DRel_mounts n d ds m e ms m' : DRel n d ds m e -> zm_ok ms -> (forall i, zm_get i ms = m' i) ->
  DRel (n + 1) (mkdb (df d) (recs d) (nextr d) ms) ds m' (e + 0).
Proof. intros R O G. destruct R. constructor; cbn [df recs nextr mounts]; auto; [eapply Rel_mono; [|eassumption]; lia|lia]. Qed.

Lemma has_dec ds p : {has ds p} + {~ has ds p}.
Proof.
  destruct (in_dec (list_eq_dec (list_eq_dec Z.eq_dec)) p (map fst ds)) as [Y|Y]; [left|right].
  - apply in_map_iff in Y. destruct Y as ([q i] & <- & Hi). exists i. exact Hi.
  - intros [i Hi]. apply Y. apply in_map_iff. exists (p, i). auto.
Qed.

Lemma snoc_case {A} (p : list A) : p = [] \/ exists q c, p = q ++ [c].
Proof. destruct p using rev_ind; [auto|right; eauto]. Qed.

Lemma remove_len {A} dec (x : A) l : NoDup l -> In x l -> zlen (remove dec x l) = zlen l - 1.
Proof.
  induction l as [|y l IH]; intros ND Hx; [destruct Hx|]. inversion ND as [|? ? N1 N2]; subst. cbn [remove]. destruct (dec x y) as [->|Ne].
  - rewrite notin_remove by exact N1. rewrite zlen_cons. lia.
  - destruct Hx as [->|Hx]; [contradiction|]. rewrite !zlen_cons, IH by assumption. lia.
Qed.

Lemma remove_nodup {A} dec (x : A) l : NoDup l -> NoDup (remove dec x l).
Proof.
  induction 1 as [|y l N1 N2 IH]; [constructor|]. cbn [remove]. destruct (dec x y); [exact IH|]. constructor; [|exact IH].
  intros Y. apply in_remove in Y. apply N1, Y.
Qed.

Lemma create_child n d ds m e q c pid : DRel n d ds m e -> n < 2 ^ 64 -> 0 <= n -> In (q, pid) ds -> Forall N (q ++ [c]) ->
  exists d' r ds', db_create_fs H d (Some pid) c = Some (d', r) /\
    promise ds m (UCreate (q ++ [c])) (AId r) ds' m /\ DRel (n + 1) d' ds' m (e + leak (AId r)) /\
    (failed (AId r) -> df d' = df d /\ mounts d' = mounts d).
Proof.
  intros R Hn Hn0 Hq G. unfold db_create_fs. set (r := nextr d).
  destruct (insert_ok n (df d) ds q c pid r (d_rel _ _ _ _ _ R) Hn Hq G) as (f' & res & E & C). rewrite E. cbn [obind].
  destruct C as [(-> & HX & ->)|(id & -> & NH & Fr & R' & GT & GO)].
  - eexists _, _, ds. split; [reflexivity|]. split; [now apply p_create_exists|]. split; [|auto].
    destruct R. constructor; cbn [df recs nextr mounts leak]; auto.
    + eapply Rel_mono; [|eassumption]. lia.
    + constructor; [|assumption]. intros Y. apply d_next0 in Y. unfold r in Y. lia.
    + intros x [<-|Hx]; [lia|]. apply d_next0 in Hx. fold r in Hx. lia.
    + intros p id par tod Hp Et. right. eauto.
    + rewrite zlen_cons. lia.
  - eexists _, _, ((q ++ [c], id) :: ds). split; [reflexivity|]. split.
    { apply p_create; [exact NH| |exact Fr]. intros q' [c' E']. apply app_inj_tail in E'. destruct E' as [<- _]. exists pid. exact Hq. }
    split; [|intros []]. destruct R. constructor; cbn [df recs nextr mounts leak]; auto.
    + constructor; [|assumption]. intros Y. apply d_next0 in Y. unfold r in Y. lia.
    + intros x [<-|Hx]; [lia|]. apply d_next0 in Hx. fold r in Hx. lia.
    + intros p i par tod [[= <- <-]|Hp] Et.
      * rewrite GT in Et. injection Et as <- <-. now left.
      * rewrite GO in Et by (intros ->; eapply Fr; eauto). right. eauto.
    + intros p i par tod p' i' par' [[= <- <-]|Hp] [[= <- <-]|Hp'] E1 E2; [reflexivity| | |].
      * rewrite GT in E1. injection E1 as <- <-. rewrite GO in E2 by (intros ->; eapply Fr; eauto).
        exfalso. pose proof (d_tod0 _ _ _ _ Hp' E2) as Y. apply d_next0 in Y. unfold r in Y. lia.
      * rewrite GT in E2. injection E2 as <- <-. rewrite GO in E1 by (intros ->; eapply Fr; eauto).
        exfalso. pose proof (d_tod0 _ _ _ _ Hp E1) as Y. apply d_next0 in Y. unfold r in Y. lia.
      * rewrite GO in E1 by (intros ->; eapply Fr; eauto). rewrite GO in E2 by (intros ->; eapply Fr; eauto). eauto.
    + constructor; [|assumption]. intros Y. eapply Fr; eauto.
    + rewrite !zlen_cons. lia.
Qed.

Lemma remove_path (ds : dsets) p id : (forall q i j, In (q, i) ds -> In (q, j) ds -> i = j) -> In (p, id) ds ->
  remove xdec (p, id) ds = filter (fun x => if pdec (fst x) p then false else true) ds.
Proof.
  intros U Hp. assert (X : forall l, (forall x, In x l -> In x ds) -> remove xdec (p, id) l = filter (fun x => if pdec (fst x) p then false else true) l).
  { induction l as [|[q i] l IH]; intros Hl; [reflexivity|]. cbn [remove filter fst]. rewrite IH by (intros; apply Hl; now right).
    destruct (xdec (p, id) (q, i)) as [Eq|Ne], (pdec q p) as [Ep|Nq]; try reflexivity.
    - exfalso. congruence.
    - exfalso. apply Ne. rewrite Ep in *. f_equal. apply (U p); [exact Hp|]. apply Hl. now left. }
  apply X. auto.
Qed.

Lemma step_ok n d ds m e o : DRel n d ds m e -> n < 2 ^ 64 -> 0 <= n -> good o -> sane ds o ->
  exists d' a ds' m', fdo H d (op_of o) = Some (d', a) /\ promise ds m o a ds' m' /\ DRel (n + 1) d' ds' m' (e + leak a) /\
    (failed a -> df d' = df d /\ mounts d' = mounts d) /\ ds' = next_ds ds o a.
Proof.
  intros R Hn Hn0 G SA.
  cut (exists d' a ds' m', fdo H d (op_of o) = Some (d', a) /\ promise ds m o a ds' m' /\ DRel (n + 1) d' ds' m' (e + leak a) /\
    (failed a -> df d' = df d /\ mounts d' = mounts d) /\ (forall p, o = UDestroy p -> ds' = next_ds ds o a)).
  { intros (d' & a & ds' & m' & E & P & R' & FF & Q). exists d', a, ds', m'. do 4 (split; [assumption|]).
    destruct P; try reflexivity. eapply Q. reflexivity. }
  destruct o as [p|p|p|p|p|id]; cbn [op_of fdo good] in *.
  - (* create *)
    destruct (snoc_case p) as [->|(q & c & ->)].
    + cbn [sane] in SA. destruct (root_or_empty _ _ _ (d_rel _ _ _ _ _ R)) as [Y|[-> F]]; [contradiction|].
      unfold create_fs. cbn [show rsplit_once]. unfold db_create_fs. rewrite F.
      pose proof (d_rel _ _ _ _ _ R) as R0. rewrite F in R0. destruct (create_root n (nextr d) Hn0 R0) as [E R']. rewrite E. cbn [obind].
      eexists _, _, _, m. split; [reflexivity|]. split.
      { apply p_create; [exact SA| |intros q []]. intros q [c E']. destruct q; discriminate. }
      split; [|split; [intros []|intros ? X; discriminate X]]. destruct R. constructor; cbn [df recs nextr mounts leak]; auto.
      * constructor; [|assumption]. intros Y. apply d_next0 in Y. lia.
      * intros x [<-|Hx]; [lia|]. apply d_next0 in Hx. lia.
      * intros p i par tod [[= <- <-]|[]] Et. cbn in Et. injection Et as <- <-. now left.
      * intros p i par tod p' i' par' [[= <- <-]|[]] [[= <- <-]|[]] _ _. reflexivity.
      * constructor; [auto|constructor].
      * rewrite !zlen_cons, d_len0. lia.
    + pose proof (good_snoc _ _ G) as [Gq Nc]. destruct (NC c Nc) as [C1 C2]. unfold create_fs.
      destruct (list_eq_dec (list_eq_dec Z.eq_dec) q []) as [->|NE].
      * cbn [app show sane] in *. rewrite rsplit_none by exact C2. destruct SA as [i Hi].
        pose proof (r_root _ _ _ (d_rel _ _ _ _ _ R) _ Hi). subst i.
        destruct (create_child n d ds m e [] c 0 R Hn Hn0 Hi G) as (d' & r & ds' & E & P & R' & FF).
        destruct c as [|x c]; [contradiction|]. rewrite E. cbn [obind]. exists d', (AId r), ds', m. do 4 (split; [assumption || reflexivity|]). intros ? X; discriminate X.
      * rewrite show_snoc by exact NE. rewrite rsplit_app by exact C2.
        destruct (lookup_ok _ _ _ q (d_rel _ _ _ _ _ R) Gq) as (par & oid & -> & L). cbn [obind]. destruct oid as [pid|].
        -- destruct L as [L _]. destruct (create_child n d ds m e q c pid R Hn Hn0 L G) as (d' & r & ds' & E & P & R' & FF).
           rewrite E. cbn [obind]. exists d', (AId r), ds', m. do 4 (split; [assumption || reflexivity|]). intros ? X; discriminate X.
        -- cbn [obind]. exists d, (AId (FErr ENOENT)), ds, m. split; [reflexivity|]. split; [|split; [now apply DRel_same|split; [auto|intros ? _; reflexivity]]].
           apply p_create_orphan with (q := q); [exists c; reflexivity|apply L].
  - (* destroy *)
    unfold destroy_fs. pose proof (d_rel _ _ _ _ _ R) as R0.
    destruct (lookup_ok _ _ _ p R0 G) as (par & oid & -> & L). cbn [obind]. destruct oid as [id|].
    2:{ cbn [obind]. eexists _, _, ds, m. split; [reflexivity|]. split; [apply p_destroy_none, L|]. split; [now apply DRel_same|]. split; [auto|intros ? _; reflexivity]. }
    destruct L as [Hp P]. unfold zm_mem. destruct (zm_get id (mounts d)) as [b|] eqn:EM.
    { cbn [obind]. eexists _, _, ds, m. split; [reflexivity|]. split; [|split; [now apply DRel_same|split; [auto|intros ? _; reflexivity]]].
      apply p_destroy_mounted with (id := id) (b := b); [exact Hp|]. rewrite <- EM. symmetry. apply (d_m _ _ _ _ _ R). }
    unfold db_destroy_fs, get_tree. destruct (r_tree _ _ _ R0 _ _ Hp) as (par1 & tod & ET & _). rewrite ET. cbn [obind].
    destruct (unlink_ok n (df d) ds p id par R0 Hn G Hp P) as (f' & res & -> & C). cbn [obind].
    destruct C as [(-> & -> & (q & Q1 & Q2))|(-> & NCh & R' & GO)].
    + cbn [obind]. eexists _, _, ds, m. split; [reflexivity|]. split.
      { apply p_destroy_parent with (q := q); [eexists; eauto|exact Q1|exact Q2]. }
      split; [|split; [auto|intros ? _; reflexivity]]. destruct d as [f0 rs nx ms]. cbn [df recs nextr mounts]. now apply DRel_same.
    + cbn [obind]. eexists _, _, (remove xdec (p, id) ds), m. split; [reflexivity|].
      assert (IR : forall x, In x (remove xdec (p, id) ds) <-> In x ds /\ x <> (p, id)).
      { intros x. split; [apply in_remove|]. intros [A B]. now apply in_in_remove. }
      split. { apply p_destroy with (id := id); auto. rewrite <- EM. symmetry. apply (d_m _ _ _ _ _ R). }
      split; [|split; [intros []|intros ? _; apply remove_path; [apply R0|exact Hp]]]. destruct R. constructor; cbn [df recs nextr mounts leak]; auto.
      * eapply Rel_mono; [|exact R']. lia.
      * now apply remove_nodup.
      * intros x Hx. apply in_remove in Hx. now apply d_next0.
      * intros q i par2 tod2 Hq E2. apply IR in Hq. destruct Hq as [Hq Ne].
        assert (NI' : i <> id) by (intros ->; apply Ne; f_equal; eapply (r_id _ _ _ R0); eauto).
        rewrite GO in E2 by exact NI'. apply in_in_remove; [|eauto]. intros ->. apply NI'. eauto.
      * intros q i par2 tod2 q' i' par3 Hq Hq' E2 E3. apply IR in Hq, Hq'. destruct Hq as [Hq Ne], Hq' as [Hq' Ne'].
        rewrite GO in E2 by (intros ->; apply Ne; f_equal; eapply (r_id _ _ _ R0); eauto).
        rewrite GO in E3 by (intros ->; apply Ne'; f_equal; eapply (r_id _ _ _ R0); eauto). eauto.
      * now apply remove_nodup.
      * rewrite !remove_len by eauto. lia.
  - (* lookup *)
    destruct (lookup_ok _ _ _ p (d_rel _ _ _ _ _ R) G) as (par & oid & -> & L). cbn [obind].
    exists d, (ALook (par, oid)), ds, m. split; [reflexivity|]. split; [|split; [now apply DRel_same|split; [intros []|intros ? X; discriminate X]]].
    destruct oid as [id|]; [destruct L; now apply p_lookup|]. destruct L as [L ->]. now apply p_lookup_none.
  - (* mount *)
    unfold new_fs. destruct (lookup_ok _ _ _ p (d_rel _ _ _ _ _ R) G) as (par & oid & -> & L). cbn [obind].
    destruct oid as [id|].
    2:{ cbn [obind]. eexists _, _, ds, m. split; [reflexivity|]. split; [apply p_mount_none, L|]. split; [now apply DRel_same|]. split; [auto|intros ? _; reflexivity]. }
    destruct L as [Hp _]. pose proof (d_m _ _ _ _ _ R id) as M.
    assert (Y : m id <> Some true -> DRel (n + 1) (mkdb (df d) (recs d) (nextr d) (zm_set id true (mounts d))) ds (upd m id (Some true)) (e + 0)).
    { intros _. apply DRel_mounts with (m := m); [exact R|apply zm_ok_set, R|]. intros i. rewrite zm_get_set by apply R. unfold upd.
      destruct (i =? id); [reflexivity|apply R]. }
    destruct (zm_get id (mounts d)) as [[|]|] eqn:EM; cbn [obind].
    + eexists _, _, ds, m. split; [reflexivity|]. split; [apply p_mount_busy with (id := id); [exact Hp|congruence]|]. split; [now apply DRel_same|]. split; [auto|intros ? _; reflexivity].
    + eexists _, _, ds, _. split; [reflexivity|]. split; [apply p_mount; [exact Hp|congruence]|]. split; [apply Y; congruence|]. split; [intros []|intros ? X; discriminate X].
    + eexists _, _, ds, _. split; [reflexivity|]. split; [apply p_mount; [exact Hp|congruence]|]. split; [apply Y; congruence|]. split; [intros []|intros ? X; discriminate X].
  - (* unmount *)
    unfold unmount. destruct (lookup_ok _ _ _ p (d_rel _ _ _ _ _ R) G) as (par & oid & -> & L). cbn [obind].
    destruct oid as [id|].
    2:{ cbn [obind]. eexists _, _, ds, m. split; [reflexivity|]. split; [apply p_unmount_none, L|]. split; [now apply DRel_same|]. split; [auto|intros ? _; reflexivity]. }
    destruct L as [Hp _]. pose proof (d_m _ _ _ _ _ R id) as M.
    destruct (zm_get id (mounts d)) as [[|]|] eqn:EM; cbn [obind].
    + eexists _, _, ds, _. split; [reflexivity|]. split; [apply p_unmount; [exact Hp|congruence]|]. split; [|split; [intros []|intros ? X; discriminate X]].
      apply DRel_mounts with (m := m); [exact R|apply zm_ok_del, R|]. intros i. rewrite zm_get_del by apply R. unfold upd.
      destruct (i =? id); [reflexivity|apply R].
    + eexists _, _, ds, m. split; [reflexivity|]. split; [apply p_unmount_not with (id := id); [exact Hp|congruence]|]. split; [now apply DRel_same|]. split; [auto|intros ? _; reflexivity].
    + eexists _, _, ds, m. split; [reflexivity|]. split; [apply p_unmount_not with (id := id); [exact Hp|congruence]|]. split; [now apply DRel_same|]. split; [auto|intros ? _; reflexivity].
  - (* dropped *)
    exists (dropped d id), ANone, ds, (match m id with Some _ => upd m id (Some false) | None => m end). split; [reflexivity|]. split; [apply p_dropped|].
    split; [|split; [intros []|intros ? X; discriminate X]]. unfold dropped, zm_mem. pose proof (d_m _ _ _ _ _ R id) as M. rewrite <- M. destruct (zm_get id (mounts d)) eqn:EM.
    + apply DRel_mounts with (m := m); [exact R|apply zm_ok_set, R|]. intros i. rewrite zm_get_set by apply R. unfold upd.
      destruct (i =? id); [reflexivity|apply R].
    + now apply DRel_same.
Qed.

Lemma Rel_init : Rel 0 [] [].
Proof. constructor; try (intros; contradiction). - apply zm_ok_nil. - intros k v E. discriminate. Qed.

Lemma DRel_init : DRel 0 db_new [] (fun _ => None) 0.
Proof.
  constructor; cbn [db_new df recs nextr mounts]; try (intros; contradiction); try apply NoDup_nil; try apply zm_ok_nil; auto. apply Rel_init.
Qed.

Lemma run_ok : forall ops n d ds m e, DRel n d ds m e -> 0 <= n -> n + zlen ops <= 2 ^ 64 -> Forall good ops -> sane_run H d ds ops ->
  exists d' as_ m', fdos H d (map op_of ops) = Some (d', as_) /\ promises ds m ops as_ (after ds ops as_) m' /\
    DRel (n + zlen ops) d' (after ds ops as_) m' (e + leaks as_).
Proof.
  induction ops as [|o ops IH]; intros n d ds m e R Hn HL F SA.
  - exists d, [], m. cbn [map fdos leaks fold_right after]. rewrite zlen_nil, !Z.add_0_r. split; [reflexivity|]. split; [apply ps_nil|exact R].
  - rewrite zlen_cons in HL. pose proof (zlen_nonneg ops). inversion F as [|? ? Go F']; subst. destruct SA as [SA SR].
    destruct (step_ok n d ds m e o R ltac:(lia) Hn Go SA) as (d1 & a & ds1 & m1 & E & P & R1 & _ & ->).
    destruct (IH (n + 1) d1 _ m1 _ R1 ltac:(lia) ltac:(lia) F' (SR _ _ E)) as (d' & as_ & m' & E' & P' & R').
    exists d', (a :: as_), m'. cbn [map fdos after]. rewrite E. cbn [obind]. rewrite E'. split; [reflexivity|].
    split; [econstructor; eauto|]. rewrite zlen_cons. cbn [leaks fold_right]. fold (leaks as_).
    replace (n + (1 + zlen ops)) with (n + 1 + zlen ops) by lia. replace (e + (leak a + leaks as_)) with (e + leak a + leaks as_) by lia. exact R'.
Qed.

(** Every history does what is promised: ids are new, lookups find what was
    created, destroying removes exactly the data set named.  Excluded are the
    creation of a second root and of a child of a root that does not exist
    ([C25_second_root_refuted], [C25_no_root_refuted]), and names with empty
    components ([C25_empty_name_refuted]). *)
Theorem C25_names_and_ids_partial ops : Forall good ops -> zlen ops <= 2 ^ 64 -> sane_run H db_new [] ops ->
  exists d as_ m, fdos H db_new (map op_of ops) = Some (d, as_) /\ promises [] (fun _ => None) ops as_ (after [] ops as_) m.
Proof.
  intros F L SA. destruct (run_ok ops 0 _ _ _ _ DRel_init ltac:(lia) ltac:(lia) F SA) as (d & as_ & m & E & P & _). eauto.
Qed.

(** *** Listing *)
Lemma entries_ok n f ds p id o : Rel n f ds -> n < 2 ^ 64 -> In (p, id) ds -> exists l,
  readdir f id o = Some l /\ StronglySorted (fun x y => snd x < snd y) l /\
  forall c i k, In (c, i, k) l <-> In (p ++ [c], i) ds /\ k = h c + 1 /\ o <= h c.
Proof.
  intros R Hn Hp. destruct (children_ok n f ds p id o R Hn Hp) as (r & E & O & HR). unfold readdir. rewrite E. cbn [obind].
  assert (GC : forall c i, In (p ++ [c], i) ds -> 0 < h c < 2 ^ 56).
  { intros c i Hi. pose proof (r_good _ _ _ R _ _ Hi) as G. apply good_snoc in G. apply h_range, G. }
  assert (Q : forall r, zm_ok r -> (forall k v, In (k, v) r -> exists c i, In (p ++ [c], i) ds /\ k = fk id (h c) /\ v = FEnt i c /\ o <= h c) ->
    exists l, entries r = Some l /\ StronglySorted (fun x y => snd x < snd y) l /\
      forall c i k, In (c, i, k) l <-> In (fk id (h c), FEnt i c) r /\ k = h c + 1).
  { clear - GC. intros r. induction r as [|[k v] r IH]; intros O HR.
    - exists []. split; [reflexivity|]. split; [constructor|]. intros c i k. split; [intros []|intros ([] & _)].
    - apply zm_ok_cons in O. destruct O as [O FO]. destruct (IH O ltac:(intros; apply HR; now right)) as (l & E & SS & HL). clear IH.
      destruct (HR k v ltac:(now left)) as (c & i & Hc & -> & -> & Hoc). cbn [entries]. rewrite E. cbn [obind].
      pose proof (GC _ _ Hc) as Rc.
      assert (M : fk id (h c) mod 2 ^ 64 = h c) by (unfold fk; rewrite Z.add_comm, Z_mod_plus_full; apply Z.mod_small; lia). rewrite M.
      eexists. split; [reflexivity|]. split.
      + constructor; [exact SS|]. apply Forall_forall. intros [[c' i'] k'] Hx. apply HL in Hx. destruct Hx as [Hx ->]. cbn [snd].
        rewrite Forall_forall in FO. specialize (FO _ Hx). cbn [fst] in FO. unfold fk in FO. lia.
      + intros c' i' k'. split.
        * intros [[= <- <- <-]|Hx]; [split; [now left|reflexivity]|]. apply HL in Hx. destruct Hx as [Hx ->]. split; [now right|reflexivity].
        * intros [[EQ|Hx] ->]; [|right; now apply HL]. injection EQ as _ <- <-. now left. }
  destruct (Q r O ltac:(intros k v Hk; apply HR, Hk)) as (l & El & SS & HL). exists l. split; [exact El|]. split; [exact SS|].
  intros c i k. rewrite HL, HR. split.
  - intros [(c' & i' & H1 & H2 & H3 & H4) ->]. injection H3 as <- <-. auto.
  - intros (H1 & -> & H3). split; [|reflexivity]. exists c, i. auto.
Qed.

Lemma sorted_ext {A} (l1 : list (A * Z)) : forall l2, StronglySorted (fun x y => snd x < snd y) l1 -> StronglySorted (fun x y => snd x < snd y) l2 ->
  (forall x, In x l1 <-> In x l2) -> l1 = l2.
Proof.
  clear. induction l1 as [|x l1 IH]; intros [|y l2] S1 S2 E.
  - reflexivity.
  - exfalso. apply (proj2 (E y)). now left.
  - exfalso. apply (proj1 (E x)). now left.
  - inversion S1 as [|? ? S1' F1]; inversion S2 as [|? ? S2' F2]; subst. rewrite Forall_forall in F1, F2.
    assert (x = y).
    { destruct (proj1 (E x) ltac:(now left)) as [->|Hx]; [reflexivity|]. destruct (proj2 (E y) ltac:(now left)) as [->|Hy]; [reflexivity|].
      apply F2 in Hx. apply F1 in Hy. lia. }
    subst y. f_equal. apply IH; auto. intros z. split; intros Hz.
    + destruct (proj1 (E z) ltac:(now right)) as [->|Hz']; [|exact Hz']. apply F1 in Hz. lia.
    + destruct (proj2 (E z) ltac:(now right)) as [->|Hz']; [|exact Hz']. apply F2 in Hz. lia.
Qed.

Lemma sorted_app {A} (l1 l2 : list (A * Z)) : StronglySorted (fun x y => snd x < snd y) (l1 ++ l2) ->
  StronglySorted (fun x y => snd x < snd y) l2 /\ forall x y, In x l1 -> In y l2 -> snd x < snd y.
Proof.
  clear. induction l1 as [|z l1 IH]; intros S; [split; [exact S|intros x y []]|]. cbn [app] in S. inversion S as [|? ? S' F]; subst.
  destruct (IH S') as [A1 A2]. split; [exact A1|]. intros x y [<-|Hx] Hy; [|now apply A2]. rewrite Forall_forall in F. apply F. apply in_or_app. now right.
Qed.

(** The children of a data set are listed, each once, and a listing can be
    resumed after any entry with the offset that came with it. *)
Theorem C25_listing_complete ops d as_ p id : Forall good ops -> zlen ops < 2 ^ 64 -> sane_run H db_new [] ops ->
  fdos H db_new (map op_of ops) = Some (d, as_) -> In (p, id) (after [] ops as_) ->
  exists l, list_fs H d (show p) 0 = Some (FOk l) /\
    NoDup (map (fun x => fst (fst x)) l) /\
    (forall c i, (exists k, In (c, i, k) l) <-> In (p ++ [c], i) (after [] ops as_)) /\
    forall l1 x l2, l = l1 ++ x :: l2 -> list_fs H d (show p) (snd x) = Some (FOk l2).
Proof.
  intros F L SA E Hp. destruct (run_ok ops 0 _ _ _ _ DRel_init ltac:(lia) ltac:(lia) F SA) as (d' & as' & m & E' & _ & R).
  rewrite E in E'. injection E' as <- <-. set (ds := after [] ops as_) in *. pose proof (d_rel _ _ _ _ _ R) as R0.
  pose proof (r_good _ _ _ R0 _ _ Hp) as Gp.
  assert (LI : forall o, list_fs H d (show p) o = let* l := readdir (df d) id o in Some (FOk l)).
  { intros o. unfold list_fs. destruct (lookup_ok _ _ _ p R0 Gp) as (par & oid & -> & X). cbn [obind]. destruct oid as [j|].
    - now rewrite (r_path _ _ _ R0 _ _ _ (proj1 X) Hp).
    - exfalso. apply (proj1 X). exists id. exact Hp. }
  assert (HN : 0 + zlen ops < 2 ^ 64) by lia.
  destruct (entries_ok _ _ _ p id 0 R0 HN Hp) as (l & El & SS & HL). exists l. rewrite LI, El. cbn [obind]. split; [reflexivity|].
  assert (GC : forall c i, In (p ++ [c], i) ds -> 0 < h c < 2 ^ 56).
  { intros c i Hi. pose proof (r_good _ _ _ R0 _ _ Hi) as G. apply good_snoc in G. apply h_range, G. }
  split; [|split].
  - assert (KH : forall x, In x l -> snd x = h (fst (fst x)) + 1) by (intros [[c i] k] Hx; apply HL in Hx; apply Hx).
    clear - SS KH. induction SS as [|x l SS IH FA]; [constructor|]. cbn [map]. constructor; [|apply IH; intros; apply KH; now right].
    intros Y. apply in_map_iff in Y. destruct Y as (y & E & Hy). rewrite Forall_forall in FA. specialize (FA _ Hy).
    rewrite (KH x) in FA by (now left). rewrite (KH y) in FA by (now right). rewrite E in FA. lia.
  - intros c i. split.
    + intros [k Hk]. apply HL in Hk. apply Hk.
    + intros Hi. exists (h c + 1). apply HL. split; [exact Hi|]. split; [reflexivity|]. pose proof (GC _ _ Hi). lia.
  - intros l1 x l2 ->. rewrite LI. destruct (entries_ok _ _ _ p id (snd x) R0 HN Hp) as (l' & El' & SS' & HL'). rewrite El'. cbn [obind].
    do 2 f_equal. apply sorted_app in SS. destruct SS as [SS BB]. inversion SS as [|? ? SS2 FA]; subst. rewrite Forall_forall in FA.
    apply sorted_ext; [exact SS'|exact SS2|]. intros [[c i] k]. rewrite HL'. split.
    + intros (H1 & -> & H3). assert (In (c, i, h c + 1) (l1 ++ x :: l2)) as Y.
      { apply HL. split; [exact H1|]. split; [reflexivity|]. pose proof (GC _ _ H1). lia. }
      apply in_app_or in Y. destruct Y as [Y|[->|Y]]; [exfalso| |exact Y].
      * specialize (BB _ x Y ltac:(now left)). cbn [snd] in *. lia.
      * cbn [snd] in H3. lia.
    + intros Y. assert (In (c, i, k) (l1 ++ x :: l2)) as Z by (apply in_or_app; right; now right). apply HL in Z. destruct Z as (Z1 & -> & _).
      split; [exact Z1|]. split; [reflexivity|]. specialize (FA _ Y). cbn [snd] in FA. lia.
Qed.

(** An operation that fails changes no name, no id and no mount.

    Missing from the full claim: the space ([C69_failed_create_leaks_refuted]). *)
Theorem C69_failure_no_effect_partial ops o d as_ : Forall good (ops ++ [o]) -> zlen ops < 2 ^ 64 -> sane_run H db_new [] (ops ++ [o]) ->
  fdos H db_new (map op_of ops) = Some (d, as_) ->
  exists d' a, fdo H d (op_of o) = Some (d', a) /\
    (failed a -> df d' = df d /\ mounts d' = mounts d /\ after [] (ops ++ [o]) (as_ ++ [a]) = after [] ops as_).
Proof.
  intros F L SA E. apply Forall_app in F. destruct F as [F Fo]. inversion Fo as [|? ? Go _]; subst.
  assert (X : forall ops d0 ds, sane_run H d0 ds (ops ++ [o]) -> sane_run H d0 ds ops /\
    forall d as_, fdos H d0 (map op_of ops) = Some (d, as_) -> sane (after ds ops as_) o /\
      forall a, after ds (ops ++ [o]) (as_ ++ [a]) = next_ds (after ds ops as_) o a).
  { clear. induction ops as [|x ops IH]; intros d0 ds SA; cbn [app sane_run] in SA.
    - destruct SA as [SA _]. split; [exact Logic.I|]. intros d as_ E. cbn [map fdos] in E. injection E as <- <-. split; [exact SA|]. reflexivity.
    - destruct SA as [SA SR]. split.
      + cbn [sane_run]. split; [exact SA|]. intros d' a E. apply (IH _ _ (SR _ _ E)).
      + intros d as_ E. cbn [map fdos] in E. destruct (fdo H d0 (op_of x)) as [[d1 a]|] eqn:Ex; [|discriminate]. cbn [obind] in E.
        destruct (fdos H d1 (map op_of ops)) as [[d2 l]|] eqn:El; [|discriminate]. cbn [obind] in E. injection E as <- <-.
        destruct (IH _ _ (SR _ _ eq_refl)) as [_ IH2]. destruct (IH2 _ _ El) as [I1 I2]. cbn [after app]. split; [exact I1|]. exact I2. }
  destruct (X ops _ _ SA) as [SA1 X2]. destruct (X2 _ _ E) as [So AF].
  destruct (run_ok ops 0 _ _ _ _ DRel_init ltac:(lia) ltac:(lia) F SA1) as (d' & as' & m & E' & _ & R).
  rewrite E in E'. injection E' as <- <-. pose proof (zlen_nonneg ops).
  destruct (step_ok _ _ _ _ _ o R ltac:(lia) ltac:(lia) Go So) as (d1 & a & ds1 & m1 & E1 & P & R1 & FF & ->).
  exists d1, a. split; [exact E1|]. intros Fa. destruct (FF Fa) as [A B]. split; [exact A|]. split; [exact B|]. rewrite AF.
  unfold next_ds. destruct o; try reflexivity; destruct a as [[]|[]| |]; try reflexivity; destruct Fa.
Qed.

(** The root records allocated: one for every data set, and one for every
    creation that failed because the name was taken. *)
Theorem C69_space_exact ops d as_ : Forall good ops -> zlen ops <= 2 ^ 64 -> sane_run H db_new [] ops ->
  fdos H db_new (map op_of ops) = Some (d, as_) ->
  NoDup (recs d) /\ zlen (recs d) = zlen (after [] ops as_) + leaks as_.
Proof.
  intros F L SA E. destruct (run_ok ops 0 _ _ _ _ DRel_init ltac:(lia) ltac:(lia) F SA) as (d' & as' & m & E' & _ & R).
  rewrite E in E'. injection E' as <- <-. split; [apply R|]. rewrite (d_len _ _ _ _ _ R). lia.
Qed.

End C25.

(** ** What is not promised by the code *)

(** A hash to compute with: the first letter (times two) plus the length. *)
Definition toyh (c : text) : Z := match c with [] => 1 | x :: r => 1000 + 10 * x + zlen r end.

From Coq Require Import String.
Open Scope string_scope.

(** Creating the root file system a second time succeeds; the new data set has no
    name, and the name still stands for the first. *)
Theorem C25_second_root_refuted : exists H d as_, fdos H db_new [OCreate []; OCreate []; OLookup []] = Some (d, as_) /\
  as_ = [AId (FOk 0); AId (FOk 1); ALook (None, Some 0)].
Proof. exists toyh. do 2 eexists. split; [vm_compute; reflexivity|reflexivity]. Qed.

(** Without a root, a child can be created: it gets the root's id and is its own
    parent, so that it can never be destroyed. *)
Theorem C25_no_root_refuted : exists H d as_, fdos H db_new [OCreate (str "a"); OLookup (str "a"); OLookup (str "a/a/a"); ODestroy (str "a")] = Some (d, as_) /\
  as_ = [AId (FOk 0); ALook (Some 0, Some 0); ALook (Some 0, Some 0); AUnit (FErr EBUSY)].
Proof. exists toyh. do 2 eexists. split; [vm_compute; reflexivity|reflexivity]. Qed.

(** A data set with an empty name can be created and found, but the attempt to
    destroy it panics. *)
Theorem C25_empty_name_refuted : exists H d as_, fdos H db_new [OCreate []; OCreate (str "a"); OCreate (str "a/"); OLookup (str "a/")] = Some (d, as_) /\
  as_ = [AId (FOk 0); AId (FOk 1); AId (FOk 2); ALook (Some 1, Some 2)] /\ fdo H d (ODestroy (str "a/")) = None.
Proof. exists toyh. do 2 eexists. split; [vm_compute; reflexivity|]. split; reflexivity. Qed.

(** With a leading slash a data set is created under a name that does not find it. *)
Theorem C25_leading_slash_refuted : exists H d as_, fdos H db_new [OCreate []; OCreate (str "/a"); OLookup (str "/a"); OLookup (str "a")] = Some (d, as_) /\
  as_ = [AId (FOk 0); AId (FOk 1); ALook (None, None); ALook (Some 0, Some 1)].
Proof. exists toyh. do 2 eexists. split; [vm_compute; reflexivity|reflexivity]. Qed.

(** Two names with the same hash: creating the second says it exists, and looking
    it up panics. *)
Theorem C25_collision_refuted : exists H d as_, fdos H db_new [OCreate []; OCreate (str "ab"); OCreate (str "ac")] = Some (d, as_) /\
  as_ = [AId (FOk 0); AId (FOk 1); AId (FErr EEXIST)] /\ fdo H d (OLookup (str "ac")) = None.
Proof. exists toyh. do 2 eexists. split; [vm_compute; reflexivity|]. split; vm_compute; reflexivity. Qed.

(** A file system that was unmounted with umount(8) cannot be destroyed. *)
Theorem C25_unmounted_busy_refuted : exists H d as_, fdos H db_new [OCreate []; OCreate (str "a"); OMount (str "a"); ODropped 1; OUnmount (str "a"); ODestroy (str "a")] = Some (d, as_) /\
  as_ = [AId (FOk 0); AId (FOk 1); AId (FOk 1); ANone; AUnit (FErr EINVAL); AUnit (FErr EBUSY)].
Proof. exists toyh. do 2 eexists. split; [vm_compute; reflexivity|reflexivity]. Qed.

(** A creation that fails because the name is taken leaves a record behind that
    belongs to no data set and is never freed. *)
Theorem C69_failed_create_leaks_refuted : exists H d as_, fdos H db_new [OCreate []; OCreate (str "a"); OCreate (str "a"); ODestroy (str "a"); ODestroy []] = Some (d, as_) /\
  as_ = [AId (FOk 0); AId (FOk 1); AId (FErr EEXIST); AUnit (FOk tt); AUnit (FOk tt)] /\ df d = [] /\ recs d = [2].
Proof. exists toyh. do 2 eexists. split; [vm_compute; reflexivity|]. split; [reflexivity|]. split; reflexivity. Qed.

(** The hypotheses are met by a history with nested data sets. *)
Definition names : list text := [str "a"; str "b"; str "usr"].
Definition ex_ops : list uop :=
  [UCreate []; UCreate [str "a"]; UCreate [str "a"; str "usr"]; UCreate [str "b"]; UDestroy [str "a"]; UDestroy [str "a"; str "usr"]; UCreate [str "a"; str "b"]; ULookup [str "a"; str "b"]].

Lemma names_ok : (forall c, In c names -> clean c) /\ (forall c, In c names -> h toyh c <> 0) /\
  (forall c d, In c names -> In d names -> h toyh c = h toyh d -> c = d).
Proof.
  split; [|split].
  - intros c [<-|[<-|[<-|[]]]]; (split; [discriminate|]); cbn; intuition discriminate.
  - intros c [<-|[<-|[<-|[]]]]; vm_compute; discriminate.
  - intros c d [<-|[<-|[<-|[]]]] [<-|[<-|[<-|[]]]]; vm_compute; intros E; congruence.
Qed.

Example C25_example : exists d as_ m, fdos toyh db_new (map op_of ex_ops) = Some (d, as_) /\
  promises [] (fun _ => None) ex_ops as_ [([str "a"; str "b"], 4); ([str "b"], 3); ([str "a"], 1); ([], 0)] m.
Proof.
  destruct names_ok as (A & B & C).
  assert (SA : sane_run toyh db_new [] ex_ops).
  { unfold ex_ops. cbn [sane_run sane]. split; [intros [i []]|]. intros d a E. vm_compute in E. injection E as <- <-.
    split; [exists 0; vm_compute; auto|]. intros d a E. vm_compute in E. injection E as <- <-. split; [exact Logic.I|].
    intros d a E. vm_compute in E. injection E as <- <-. split; [exists 0; vm_compute; auto|]. intros d a E. vm_compute in E. injection E as <- <-. auto 20. }
  assert (G : Forall (good (fun c => In c names)) ex_ops).
  { unfold ex_ops. repeat (apply Forall_cons; [cbn [good]; repeat (apply Forall_cons; [cbn; tauto|]); constructor|]). constructor. }
  destruct (C25_names_and_ids_partial toyh (fun c => In c names) A B C ex_ops G ltac:(vm_compute; discriminate) SA) as (d & as_ & m & E & P).
  exists d, as_, m. split; [exact E|]. vm_compute in E. injection E as _ <-. exact P.
Qed.

Print Assumptions C25_names_and_ids_partial.
Print Assumptions C25_listing_complete.
Print Assumptions C69_failure_no_effect_partial.
Print Assumptions C69_space_exact.
Print Assumptions C25_second_root_refuted.
Print Assumptions C25_no_root_refuted.
Print Assumptions C25_empty_name_refuted.
Print Assumptions C25_leading_slash_refuted.
Print Assumptions C25_collision_refuted.
Print Assumptions C25_unmounted_busy_refuted.
Print Assumptions C69_failed_create_leaks_refuted.
