(** C33: hash tables in the B-tree behave as maps, for every hash function. *)
From Verif Require Import Common HTable_Model.
From Coq Require Import Permutation.

Section HT.
Context {N V : Type} (same : N -> N -> bool) (hash : N -> Z).
Context (same_spec : forall a b, same a b = true <-> a = b).

(** Specification: a map from names to values. *)
Definition smap := N -> option V.
Definition sset (m : smap) (n : N) (v : option V) : smap := fun n' => if same n' n then v else m n'.

Inductive op := Get (n : N) | Insert (n : N) (v : V) | Remove (n : N).
(** Every operation answers the value the name had before, or "not there". *)
Definition spec_step (m : smap) (o : op) : option V * smap :=
  match o with
  | Get n => (m n, m)
  | Insert n v => (m n, sset m n (Some v))
  | Remove n => (m n, sset m n None)
  end.

(** What the file system sees: [None] = panicked. *)
Definition model_step (d : @dataset N V) (o : op) : option (option V) * dataset :=
  match o with
  | Get n => (match ht_get same d (hash n) n with
              | Ok x => Some (Some (snd x)) | NotFound => Some None | Panic => None end, d)
  | Insert n v => let '(r, d') := ht_insert same d (hash n) (n, v) in
      (match r with Ok (Some x) => Some (Some (snd x)) | Ok None => Some None | _ => None end, d')
  | Remove n => let '(r, d') := ht_remove same d (hash n) n in
      (match r with Ok x => Some (Some (snd x)) | NotFound => Some None | Panic => None end, d')
  end.

Fixpoint spec_run (m : smap) (ops : list op) : list (option V) * smap :=
  match ops with
  | [] => ([], m)
  | o :: ops' => let '(r, m1) := spec_step m o in let '(rs, m2) := spec_run m1 ops' in (r :: rs, m2)
  end.
Fixpoint model_run (d : dataset) (ops : list op) : list (option (option V)) * dataset :=
  match ops with
  | [] => ([], d)
  | o :: ops' => let '(r, d1) := model_step d o in let '(rs, d2) := model_run d1 ops' in (r :: rs, d2)
  end.

Definition items (d : @dataset N V) (k : Z) : list (N * V) :=
  match d k with Some (Single x) => [x] | Some (Bucket l) => l | _ => [] end.

Definition inv (d : dataset) (m : smap) : Prop :=
  forall k, match d k with
            | Some Other => False
            | Some (Bucket l) => (2 <= length l)%nat
            | _ => True
            end /\ NoDup (map fst (items d k)) /\
            (forall n v, In (n, v) (items d k) <-> hash n = k /\ m n = Some v).

Lemma same_refl n : same n n = true. Proof. now apply same_spec. Qed.
Lemma same_neq a b : a <> b -> same a b = false.
Proof. intros H. destruct (same a b) eqn:E; [|reflexivity]. apply same_spec in E. contradiction. Qed.

Lemma find_item n (l : list (N * V)) : NoDup (map fst l) ->
  match find (is_item same n) l with
  | Some x => fst x = n /\ In x l
  | None => forall v, ~ In (n, v) l
  end.
Proof.
  intros Hnd. induction l as [|[a v] l IH]; cbn [find map fst] in *; [auto|].
  inversion Hnd as [|? ? Hni Hnd']; subst. unfold is_item at 1; cbn [fst].
  destruct (same a n) eqn:E.
  - apply same_spec in E. subst. cbn. auto.
  - specialize (IH Hnd'). destruct (find (is_item same n) l); cbn [In].
    + tauto.
    + intros w [H|H]; [injection H as -> ->; now rewrite same_refl in E|]. exact (IH w H).
Qed.

Lemma replace_spec n new (l : list (N * V)) : fst new = n -> NoDup (map fst l) ->
  match replace_first same n new l with
  | Some (o, l') => fst o = n /\ In o l /\ map fst l' = map fst l /\ length l' = length l /\
      (forall x, In x l' <-> x = new \/ (In x l /\ fst x <> n))
  | None => forall v, ~ In (n, v) l
  end.
Proof.
  intros Hnew Hnd. induction l as [|[a v] l IH]; cbn [replace_first map fst] in *; [auto|].
  inversion Hnd as [|? ? Hni Hnd']; subst. unfold is_item at 1; cbn [fst].
  destruct (same a (fst new)) eqn:E.
  - apply same_spec in E. subst a. cbn [fst In map length]. repeat split; auto.
    + intros [H|H]; [auto|]. right. split; [auto|]. intros Hx. apply Hni. rewrite <- Hx. now apply in_map.
    + intros [->|[[<-|H] Hx]]; auto. contradiction.
  - specialize (IH Hnd'). destruct (replace_first same (fst new) new l) as [[o l']|].
    + destruct IH as (H1 & H2 & H3 & H4 & H5). cbn [fst In map length]. rewrite H3, H4. repeat split; auto.
      * intros [<-|H]; [right; split; [auto|]; cbn; intros Hx; subst a; now rewrite same_refl in E|].
        apply H5 in H. tauto.
      * rewrite H5. tauto.
    + intros w [H|H]; [injection H as Ha Hv; subst a; now rewrite same_refl in E|]. exact (IH w H).
Qed.

Lemma split_spec n (l : list (N * V)) :
  match split_first same n l with
  | Some (a, y, b) => l = a ++ y :: b /\ fst y = n
  | None => forall v, ~ In (n, v) l
  end.
Proof.
  induction l as [|[a v] l IH]; cbn [split_first]; [auto|].
  unfold is_item at 1; cbn [fst]. destruct (same a n) eqn:E.
  - apply same_spec in E. subst. auto.
  - destruct (split_first same n l) as [[[p y] b]|].
    + destruct IH as [-> H]. auto.
    + intros w [H|H]; [injection H as -> ->; now rewrite same_refl in E|]. exact (IH w H).
Qed.

Lemma swap_spec n (l : list (N * V)) : NoDup (map fst l) ->
  match swap_remove same n l with
  | Some (y, l') => fst y = n /\ In y l /\ Permutation (y :: l') l
  | None => forall v, ~ In (n, v) l
  end.
Proof.
  intros Hnd. unfold swap_remove. pose proof (split_spec n l) as H.
  destruct (split_first same n l) as [[[a y] b]|]; [|exact H]. destruct H as [-> Hy].
  destruct (rev b) as [|z rb] eqn:E.
  - assert (b = []) by (rewrite <- (rev_involutive b), E; reflexivity). subst b.
    split; [exact Hy|]. split; [apply in_or_app; right; left; reflexivity|].
    apply Permutation_cons_append.
  - assert (b = rev rb ++ [z]) by (rewrite <- (rev_involutive b), E; reflexivity). subst b.
    split; [exact Hy|]. split; [apply in_or_app; right; left; reflexivity|].
    transitivity (y :: a ++ rev rb ++ [z]).
    + apply perm_skip, Permutation_app_head, Permutation_cons_append.
    + apply Permutation_middle.
Qed.

Lemma nodup_unique (l : list (N * V)) n v w : NoDup (map fst l) -> In (n, v) l -> In (n, w) l -> v = w.
Proof.
  induction l as [|[a x] l IH]; cbn [map fst In]; [tauto|]. intros Hnd H1 H2.
  inversion Hnd as [|? ? Hni Hnd']; subst.
  destruct H1 as [H1|H1], H2 as [H2|H2].
  - congruence.
  - injection H1 as -> ->. exfalso. apply Hni. apply (in_map fst) in H2. exact H2.
  - injection H2 as -> ->. exfalso. apply Hni. apply (in_map fst) in H1. exact H1.
  - auto.
Qed.

(** Rebuild the invariant after changing one cell. *)
Lemma inv_update (d d' : dataset) m n v k c :
  inv d m -> k = hash n -> d' k = c -> (forall k', k' <> k -> d' k' = d k') ->
  match c with Some Other => False | Some (Bucket l) => (2 <= length l)%nat | _ => True end ->
  NoDup (map fst (match c with Some (Single x) => [x] | Some (Bucket l) => l | _ => [] end)) ->
  (forall x, In x (match c with Some (Single x) => [x] | Some (Bucket l) => l | _ => [] end) <->
             (exists w, v = Some w /\ x = (n, w)) \/ (In x (items d k) /\ fst x <> n)) ->
  inv d' (sset m n v).
Proof.
  intros Hi Hk Hc Ho Hsh Hnd Hin k'. destruct (Z.eq_dec k' k) as [->|Hne].
  - unfold items. rewrite Hc. split; [destruct c as [[| |]|]; auto|]. split; [exact Hnd|].
    intros a w. rewrite Hin. destruct (Hi k) as (_ & _ & Hm). unfold sset. split.
    + intros [(u & -> & E)|[H Hf]].
      * injection E as -> ->. rewrite same_refl. auto.
      * cbn [fst] in Hf. apply Hm in H. rewrite same_neq by exact Hf. exact H.
    + intros [Hh Hs]. destruct (same a n) eqn:E.
      * apply same_spec in E. subst a. left. exists w. auto.
      * right. split; [apply Hm; auto|]. cbn. intros ->. now rewrite same_refl in E.
  - unfold items. rewrite Ho by exact Hne. destruct (Hi k') as (H1 & H2 & H3). split; [exact H1|]. split; [exact H2|].
    intros a w. unfold items in H3. rewrite H3. unfold sset. split; intros [Hh Hs]; split; auto.
    + rewrite same_neq; [exact Hs|]. intros ->. congruence.
    + rewrite same_neq in Hs; [exact Hs|]. intros ->. congruence.
Qed.

Lemma inv_lookup d m n : inv d m -> match m n with Some v => In (n, v) (items d (hash n)) | None => forall v, ~ In (n, v) (items d (hash n)) end.
Proof.
  intros Hi. destruct (Hi (hash n)) as (_ & _ & H). destruct (m n) as [v|] eqn:E.
  - apply H. auto.
  - intros v Hin. apply H in Hin. destruct Hin. congruence.
Qed.

Lemma step_ok d m o : inv d m ->
  fst (model_step d o) = Some (fst (spec_step m o)) /\ inv (snd (model_step d o)) (snd (spec_step m o)).
Proof.
  intros Hi. destruct o as [n|n v|n]; cbn [model_step spec_step fst snd];
    pose proof (inv_lookup d m n Hi) as Hl; destruct (Hi (hash n)) as (Hsh & Hnd & Hm).
  - (* Get *)
    split; [|exact Hi]. unfold ht_get, items in *. destruct (d (hash n)) as [[x|l|]|]; [| |contradiction|].
    + unfold is_item. destruct x as [a w]; cbn [fst snd]. destruct (same a n) eqn:E.
      * apply same_spec in E. subst a. destruct (m n) as [v|].
        -- destruct Hl as [Hl|[]]. now injection Hl as ->.
        -- exfalso. apply (Hl w). left. reflexivity.
      * destruct (m n) as [v|]; [|reflexivity]. destruct Hl as [Hl|[]]. injection Hl as -> ->. now rewrite same_refl in E.
    + destruct (Nat.leb_spec (length l) 1); [lia|].
      pose proof (find_item n l Hnd) as Hf. destruct (find (is_item same n) l) as [[a w]|].
      * destruct Hf as [Ha Hin]. cbn in Ha. subst a. destruct (m n) as [v|].
        -- cbn [snd]. do 2 f_equal. eapply nodup_unique; eauto.
        -- exfalso. exact (Hl w Hin).
      * destruct (m n) as [v|]; [exfalso; exact (Hf v Hl)|reflexivity].
    + destruct (m n) as [v|]; [destruct Hl|reflexivity].
  - (* Insert *)
    unfold ht_insert, ds_insert. cbn [fst snd]. unfold items in *.
    destruct (d (hash n)) as [[x|l|]|] eqn:Ed; [| |contradiction|].
    + unfold is_item. destruct x as [a w]; cbn [fst snd]. destruct (same a n) eqn:E.
      * apply same_spec in E. subst a. cbn [fst snd]. split.
        -- destruct (m n) as [u|]; [destruct Hl as [Hl|[]]; congruence|exfalso; apply (Hl w); left; reflexivity].
        -- eapply (inv_update d _ m n (Some v) (hash n) (Some (Single (n, v)))); eauto; cbn beta.
           ++ rewrite Z.eqb_refl. reflexivity.
           ++ intros k' Hk'. destruct (Z.eqb_spec k' (hash n)); [contradiction|reflexivity].
           ++ intros x. unfold items. rewrite Ed. cbn [In]. split.
              ** intros [<-|[]]. left. eauto.
              ** intros [(u & E & ->)|[[<-|[]] H]]; [injection E as ->; auto|]. cbn in H. contradiction.
      * rewrite Z.eqb_refl. cbn [fst snd]. 
        assert (Han : a <> n) by (intros ->; now rewrite same_refl in E).
        split.
        -- destruct (m n) as [u|]; [destruct Hl as [Hl|[]]; congruence|reflexivity].
        -- eapply (inv_update d _ m n (Some v) (hash n) (Some (Bucket [(a, w); (n, v)]))); eauto; cbn beta.
           ++ rewrite Z.eqb_refl. reflexivity.
           ++ intros k' Hk'. destruct (Z.eqb_spec k' (hash n)); [contradiction|reflexivity].
           ++ cbn. constructor; [cbn; intuition congruence|]. repeat constructor; cbn; tauto.
           ++ intros x. unfold items. rewrite Ed. cbn [In]. split.
              ** intros [<-|[<-|[]]]; [right; split; [auto|exact Han]|left; eauto].
              ** intros [(u & Eu & ->)|[[<-|[]] H]]; [injection Eu as ->; auto|]. auto.
    + rewrite Z.eqb_refl. pose proof (replace_spec n (n, v) l eq_refl Hnd) as Hr.
      destruct (replace_first same n (n, v) l) as [[[a w] l']|].
      * destruct Hr as (H1 & H2 & H3 & H4 & H5). cbn [fst] in H1. subst a. cbn [fst snd]. split.
        -- destruct (m n) as [u|]; [|exfalso; exact (Hl w H2)]. do 2 f_equal. eapply nodup_unique; eauto.
        -- eapply (inv_update d _ m n (Some v) (hash n) (Some (Bucket l'))); eauto; cbn beta.
           ++ rewrite Z.eqb_refl. reflexivity.
           ++ intros k' Hk'. destruct (Z.eqb_spec k' (hash n)); [contradiction|reflexivity].
           ++ lia.
           ++ rewrite H3. exact Hnd.
           ++ intros x. unfold items. rewrite Ed. rewrite H5. split.
              ** intros [->|[H H']]; [left; eauto|right; auto].
              ** intros [(u & Eu & ->)|[H H']]; [injection Eu as ->; auto|right; auto].
      * cbn [fst snd]. split.
        -- destruct (m n) as [u|]; [exfalso; exact (Hr u Hl)|reflexivity].
        -- eapply (inv_update d _ m n (Some v) (hash n) (Some (Bucket (l ++ [(n, v)])))); eauto; cbn beta.
           ++ rewrite Z.eqb_refl. reflexivity.
           ++ intros k' Hk'. destruct (Z.eqb_spec k' (hash n)); [contradiction|reflexivity].
           ++ rewrite app_length. cbn. lia.
           ++ rewrite map_app. cbn [map fst].
              apply (Permutation_NoDup (l := n :: map fst l)).
              { apply Permutation_cons_append. }
              constructor; [|exact Hnd]. intros Hin. apply in_map_iff in Hin. destruct Hin as ([a w] & Ea & Hin).
              cbn in Ea. subst a. exact (Hr w Hin).
           ++ intros x. unfold items. rewrite Ed. rewrite in_app_iff. cbn [In]. split.
              ** intros [H|[<-|[]]]; [right|left; eauto]. split; [exact H|]. intros Hx. destruct x as [a w].
                 cbn in Hx. subst a. exact (Hr w H).
              ** intros [(u & Eu & ->)|[H H']]; [injection Eu as ->; auto|auto].
    + cbn [fst snd]. split; [destruct (m n); [destruct Hl|reflexivity]|].
      eapply (inv_update d _ m n (Some v) (hash n) (Some (Single (n, v)))); eauto; cbn beta.
      * rewrite Z.eqb_refl. reflexivity.
      * intros k' Hk'. destruct (Z.eqb_spec k' (hash n)); [contradiction|reflexivity].
      * repeat constructor; cbn; tauto.
      * intros x. unfold items. rewrite Ed. cbn [In]. split.
        -- intros [<-|[]]. left. eauto.
        -- intros [(u & E & ->)|[[] H]]. injection E as ->; auto.
  - (* Remove *)
    unfold ht_remove, ds_remove, ds_insert. cbn [fst snd]. unfold items in *.
    destruct (d (hash n)) as [[x|l|]|] eqn:Ed; [| |contradiction|].
    + unfold is_item. destruct x as [a w]; cbn [fst snd]. destruct (same a n) eqn:E.
      * apply same_spec in E. subst a. cbn [fst snd]. split.
        -- destruct (m n) as [u|]; [destruct Hl as [Hl|[]]; congruence|exfalso; apply (Hl w); left; reflexivity].
        -- eapply (inv_update d _ m n None (hash n) None); eauto; cbn beta.
           ++ rewrite Z.eqb_refl. reflexivity.
           ++ intros k' Hk'. destruct (Z.eqb_spec k' (hash n)); [contradiction|reflexivity].
           ++ constructor.
           ++ intros x. unfold items. rewrite Ed. cbn [In]. split; [tauto|].
              intros [(u & Eu & ->)|[[<-|[]] H]]; [discriminate|]. cbn in H. contradiction.
      * cbn [fst snd]. assert (Han : a <> n) by (intros ->; now rewrite same_refl in E). split.
        -- destruct (m n) as [u|]; [destruct Hl as [Hl|[]]; congruence|reflexivity].
        -- eapply (inv_update d _ m n None (hash n) (Some (Single (a, w)))); eauto; cbn beta.
           ++ rewrite Z.eqb_refl. reflexivity.
           ++ intros k' Hk'. destruct (Z.eqb_spec k' (hash n)); [contradiction|reflexivity].
           ++ intros x. unfold items. rewrite Ed. cbn [In]. split.
              ** intros [<-|[]]. right. split; [auto|exact Han].
              ** intros [(u & Eu & ->)|[[<-|[]] H]]; [discriminate|auto].
    + pose proof (swap_spec n l Hnd) as Hs. destruct (swap_remove same n l) as [[[a w] l']|].
      * destruct Hs as (H1 & H2 & H3). cbn [fst] in H1. subst a.
        assert (Hnd' : NoDup (map fst ((n, w) :: l'))).
        { eapply Permutation_NoDup; [|exact Hnd]. apply Permutation_map. symmetry. exact H3. }
        cbn [map fst] in Hnd'. inversion Hnd' as [|? ? Hni Hnd'']; subst.
        assert (Hin : forall x, In x l' <-> (exists u, None = Some u /\ x = (n, u)) \/ (In x l /\ fst x <> n)).
        { intros x. split.
          - intros H. right. split; [eapply Permutation_in; [exact H3|]; right; exact H|].
            intros Hx. apply Hni. rewrite <- Hx. now apply in_map.
          - intros [(u & Eu & _)|[H Hx]]; [discriminate|].
            apply (Permutation_in _ (Permutation_sym H3)) in H. destruct H as [<-|H]; [cbn in Hx; contradiction|exact H]. }
        assert (Hres : m n = Some w).
        { destruct (m n) as [u|]; [|exfalso; exact (Hl w H2)]. f_equal. exact (nodup_unique l n u w Hnd Hl H2). }
        assert (Hlen : S (length l') = length l) by (apply Permutation_length in H3; exact H3).
        destruct l' as [|x [|y l']]; cbn [fst snd length] in *; [lia| |]; rewrite Hres; (split; [reflexivity|]).
        -- eapply (inv_update d _ m n None (hash n) (Some (Single x))); eauto; cbn beta.
           ++ rewrite Z.eqb_refl. reflexivity.
           ++ intros k' Hk'. destruct (Z.eqb_spec k' (hash n)); [contradiction|reflexivity].
           ++ intros z. unfold items. rewrite Ed. apply Hin.
        -- eapply (inv_update d _ m n None (hash n) (Some (Bucket (x :: y :: l')))); eauto; cbn beta.
           ++ rewrite Z.eqb_refl. reflexivity.
           ++ intros k' Hk'. destruct (Z.eqb_spec k' (hash n)); [contradiction|reflexivity].
           ++ cbn. lia.
           ++ intros z. unfold items. rewrite Ed. apply Hin.
      * cbn [fst snd]. split; [destruct (m n) as [u|]; [exfalso; exact (Hs u Hl)|reflexivity]|].
        eapply (inv_update d _ m n None (hash n) (Some (Bucket l))); eauto; cbn beta.
        -- rewrite Z.eqb_refl. reflexivity.
        -- intros k' Hk'. destruct (Z.eqb_spec k' (hash n)); [contradiction|reflexivity].
        -- intros x. unfold items. rewrite Ed. split.
           ++ intros H. right. split; [exact H|]. intros Hx. destruct x as [a w]. cbn in Hx. subst a. exact (Hs w H).
           ++ intros [(u & Eu & _)|[H _]]; [discriminate|exact H].
    + cbn [fst snd]. split; [destruct (m n); [destruct Hl|reflexivity]|].
      eapply (inv_update d _ m n None (hash n) None); eauto; cbn beta.
      * rewrite Z.eqb_refl. reflexivity.
      * intros k' Hk'. destruct (Z.eqb_spec k' (hash n)); [contradiction|reflexivity].
      * intros x. unfold items. rewrite Ed. cbn [In]. split; [tauto|].
        intros [(u & Eu & _)|[[] _]]. discriminate.
Qed.

Lemma run_ok ops : forall d m, inv d m ->
  fst (model_run d ops) = map Some (fst (spec_run m ops)) /\ inv (snd (model_run d ops)) (snd (spec_run m ops)).
Proof.
  induction ops as [|o ops IH]; intros d m Hi; cbn [model_run spec_run].
  - auto.
  - destruct (step_ok d m o Hi) as [H1 H2].
    destruct (model_step d o) as [r d1], (spec_step m o) as [r' m1]. cbn [fst snd] in *.
    destruct (IH d1 m1 H2) as [H3 H4].
    destruct (model_run d1 ops) as [rs d2], (spec_run m1 ops) as [rs' m2]. cbn [fst snd] in *.
    split; [cbn [map]; congruence|exact H4].
Qed.

End HT.

(** ** C33.  For every hash function and every sequence of lookups, insertions
    (including overwriting) and removals: no panic, and the answers are those of a map
    from names to values.  Afterwards the stored items are exactly that map's bindings,
    each stored once, under its name's hash. *)
Theorem C33_hash_table_is_a_map : forall {N V : Type} (same : N -> N -> bool) (hash : N -> Z),
  (forall a b, same a b = true <-> a = b) ->
  forall ops : list (@op N V),
  let '(answers, table) := model_run same hash (fun _ => None) ops in
  let '(expected, map_) := spec_run same (fun _ => None) ops in
  answers = map Some expected /\
  forall k, NoDup (map fst (items table k)) /\
            (forall n v, In (n, v) (items table k) <-> hash n = k /\ map_ n = Some v).
Proof.
  intros N V same hash Hs ops.
  destruct (run_ok same hash Hs ops (fun _ => None) (fun _ => None)) as [H1 H2].
  { intros k. unfold items. split; [exact I|]. split; [constructor|]. intros n v. cbn. split; [tauto|intros [_ H]; discriminate]. }
  destruct (model_run same hash (fun _ => None) ops) as [a t], (spec_run same (fun _ => None) ops) as [e m].
  cbn [fst snd] in *. split; [exact H1|]. intros k. destruct (H2 k) as (_ & H3 & H4). auto.
Qed.

(** All names collide: three entries share a bucket, which shrinks back to a single. *)
Example C33_ex :
  fst (model_run (V := Z) Z.eqb (fun _ => 0) (fun _ => None)
        [Insert 1 10; Insert 2 20; Insert 3 30; Insert 2 21; Remove 1; Get 2; Remove 3; Get 3; Get 2; Remove 9])
  = map Some [None; None; None; Some 20; Some 10; Some 21; Some 30; None; Some 21; None].
Proof. reflexivity. Qed.

Print Assumptions C33_hash_table_is_a_map.
