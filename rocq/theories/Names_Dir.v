(** Directories: the hash table of HTable_Model.v stored as a finite list of cells behaves as a list of entries. *)
From Verif Require Import Common HTable_Model HTable_Props Names_Model.
From Coq Require Import Permutation.

Lemma name_eqb_spec : forall a b, name_eqb a b = true <-> a = b.
Proof.
  induction a as [|x a IH]; intros [|y b]; cbn [name_eqb]; try (split; congruence). rewrite andb_true_iff, Z.eqb_eq, IH. split; [intros [-> ->]; reflexivity|intros E; injection E; auto].
Qed.
Lemma name_eqb_refl n : name_eqb n n = true. Proof. now apply name_eqb_spec. Qed.
Lemma name_eqb_neq a b : a <> b -> name_eqb a b = false.
Proof. intros H. destruct (name_eqb a b) eqn:E; [|reflexivity]. apply name_eqb_spec in E. contradiction. Qed.

Definition cell_items (c : @cell name ent) : list (name * ent) := match c with Single x => [x] | Bucket l => l | Other => [] end.
Definition dents (l : dir) : list (name * ent) := flat_map (fun kc => cell_items (snd kc)) l.

Section Dir.
Context (hash : name -> Z).

Definition cell_ok (k : Z) (c : @cell name ent) : Prop :=
  match c with Other => False | Bucket l => (2 <= length l)%nat | _ => True end /\ NoDup (map fst (cell_items c)) /\ Forall (fun x => hash (fst x) = k) (cell_items c).
Definition WFd (l : dir) : Prop := NoDup (map fst l) /\ Forall (fun kc => cell_ok (fst kc) (snd kc)) l.

Definition ocell (c : option (@cell name ent)) : list (name * ent) := match c with Some c => cell_items c | None => [] end.
Notation others k l := (filter (fun kc : Z * @cell name ent => negb (fst kc =? k)) l).

Lemma others_notin k (l : dir) : ~ In k (map fst (others k l)).
Proof. intros H. apply in_map_iff in H. destruct H as (x & E & I). apply filter_In in I. lia. Qed.
Lemma others_id k (l : dir) : ~ In k (map fst l) -> others k l = l.
Proof. induction l as [|[k' c] l IH]; intros H; [reflexivity|]. cbn [filter map fst In] in *. destruct (Z.eqb_spec k' k); [subst; tauto|]. cbn [negb]. f_equal. apply IH. tauto. Qed.
Lemma others_wf k l : WFd l -> WFd (others k l).
Proof.
  intros [N F]. split.
  - clear F. induction l as [|[k' c] l IH]; [constructor|]. cbn [filter map fst] in *. inversion N; subst. destruct (Z.eqb_spec k' k); cbn [negb]; [auto|]. cbn [map fst]. constructor; [|auto]. intros I. apply H1. apply in_map_iff in I. destruct I as (x & E & I). apply filter_In in I. apply in_map_iff. exists x. tauto.
  - apply Forall_forall. intros x I. apply filter_In in I. exact (proj1 (Forall_forall _ _) F x (proj1 I)).
Qed.
Lemma dget_notin k (l : dir) : ~ In k (map fst l) -> dget l k = None.
Proof. induction l as [|[k' c] l IH]; intros H; [reflexivity|]. cbn [dget map fst In] in *. destruct (Z.eqb_spec k' k); [subst; tauto|]. apply IH. tauto. Qed.

Lemma dents_split k l : WFd l -> Permutation (dents l) (ocell (dget l k) ++ dents (others k l)).
Proof.
  intros [N _]. induction l as [|[k' c] l IH]; [constructor|]. cbn [map fst] in N. inversion N; subst. cbn [dget filter fst]. destruct (Z.eqb_spec k' k) as [->|Hne]; cbn [negb].
  - rewrite others_id by assumption. reflexivity.
  - unfold dents in *. cbn [flat_map snd]. rewrite (IH H2). rewrite !app_assoc. apply Permutation_app_tail. apply Permutation_app_comm.
Qed.
Lemma dget_ok k l c : WFd l -> dget l k = Some c -> cell_ok k c.
Proof.
  intros [_ F] E. induction F as [|[k' c'] l H F IH]; [discriminate|]. cbn [dget] in E. destruct (Z.eqb_spec k' k) as [->|]; [injection E as <-; exact H|auto].
Qed.
Lemma others_hash k l x : WFd l -> In x (dents (others k l)) -> hash (fst x) <> k.
Proof.
  intros [_ F] I. unfold dents in I. apply in_flat_map in I. destruct I as (kc & I & Ix). apply filter_In in I. destruct I as [I Hk]. destruct (proj1 (Forall_forall _ _) F kc I) as (_ & _ & H). rewrite (proj1 (Forall_forall _ _) H x Ix). lia.
Qed.
Lemma dents_hash l n e : WFd l -> In (n, e) (dents l) <-> In (n, e) (ocell (dget l (hash n))).
Proof.
  intros W. rewrite (Permutation_in' eq_refl (dents_split (hash n) l W)). rewrite in_app_iff. split; [|auto]. intros [H|H]; [exact H|]. exfalso. exact (others_hash _ _ _ W H eq_refl).
Qed.
Lemma ocell_nodup k l : WFd l -> NoDup (map fst (ocell (dget l k))).
Proof. intros W. destruct (dget l k) as [c|] eqn:E; [|constructor]. exact (proj1 (proj2 (dget_ok _ _ _ W E))). Qed.
Lemma dents_nodup l : WFd l -> NoDup (map fst (dents l)).
Proof.
  intros [N F]. induction F as [|[k c] l (H1 & H2 & H3) F IH]; [constructor|]. cbn [map fst] in N. inversion N; subst. unfold dents. cbn [flat_map snd]. rewrite map_app. fold (dents l). specialize (IH H5). cbn [fst snd] in *.
  assert (W : WFd l) by (split; assumption). assert (D : forall x y, In x (cell_items c) -> In y (dents l) -> fst x <> fst y).
  { intros x y Ix Iy E. assert (hash (fst x) = k) by exact (proj1 (Forall_forall _ _) H3 x Ix). rewrite <- (others_id k l H4) in Iy. apply (others_hash k l) in Iy; [|exact W]. congruence. }
  clear - H2 IH D. induction (cell_items c) as [|x xs IHx]; [exact IH|]. cbn [map app] in *. inversion H2; subst. constructor.
  - intros I. apply in_app_iff in I. destruct I as [I|I]; [contradiction|]. apply in_map_iff in I. destruct I as (y & E & Iy). exact (D x y (or_introl eq_refl) Iy (eq_sym E)).
  - apply IHx; [assumption|]. intros a b Ia. apply D. now right.
Qed.
Lemma dents_unique l n e e' : WFd l -> In (n, e) (dents l) -> In (n, e') (dents l) -> e = e'.
Proof. intros W. apply (nodup_unique hash (dents l) n e e'). now apply dents_nodup. Qed.

Lemma dput_wf l k c : WFd l -> match c with Some c => cell_ok k c | None => True end -> WFd (dput l k c).
Proof.
  intros W H. pose proof (others_wf k l W) as [N F]. unfold dput. destruct c as [c|]; [|now split]. split; [cbn [map fst]; constructor; [apply others_notin|exact N]|]. constructor; [exact H|exact F].
Qed.
Lemma dput_dents l k c : dents (dput l k c) = ocell c ++ dents (others k l).
Proof. unfold dput. destruct c; reflexivity. Qed.

Lemma dir_get_spec l n : WFd l ->
  match dir_get hash l n with
  | Ok (n', e) => n' = n /\ In (n, e) (dents l)
  | NotFound => forall e, ~ In (n, e) (dents l)
  | Panic => False
  end.
Proof.
  intros W. unfold dir_get, ht_get. pose proof (dents_hash l n) as DH. pose proof (ocell_nodup (hash n) l W) as ND.
  destruct (dget l (hash n)) as [[old|old|]|] eqn:E.
  - unfold is_item. destruct (name_eqb (fst old) n) eqn:En.
    + apply name_eqb_spec in En. destruct old as [n' e]. cbn [fst] in En. subst n'. split; [reflexivity|]. apply DH; [exact W|]. now left.
    + intros e I. apply DH in I; [|exact W]. destruct I as [->|[]]. cbn [fst] in En. now rewrite name_eqb_refl in En.
  - destruct (dget_ok _ _ _ W E) as (L & _ & _). destruct (Nat.leb_spec (length old) 1); [lia|].
    pose proof (find_item name_eqb hash name_eqb_spec n old ND) as FI. destruct (find (is_item name_eqb n) old) as [[n' e]|].
    + cbn [fst] in FI. destruct FI as [-> I]. split; [reflexivity|]. now apply DH.
    + intros e I. apply DH in I; [|exact W]. exact (FI e I).
  - now destruct (dget_ok _ _ _ W E).
  - intros e I. apply DH in I; [|exact W]. exact I.
Qed.

(** inserting: the old entry of that name, if any, is replaced *)
Lemma dir_insert_spec l n e : WFd l ->
  exists r l', dir_insert hash l n e = (Ok r, l') /\ WFd l' /\
    match r with
    | Some (n', e0) => n' = n /\ In (n, e0) (dents l) /\ exists rest, Permutation (dents l) ((n, e0) :: rest) /\ Permutation (dents l') ((n, e) :: rest)
    | None => (forall e0, ~ In (n, e0) (dents l)) /\ Permutation (dents l') ((n, e) :: dents l)
    end.
Proof.
  intros W. pose proof (dents_split (hash n) l W) as DS. pose proof (fun e0 => dents_hash l n e0 W) as DH. pose proof (ocell_nodup (hash n) l W) as ND.
  unfold dir_insert, ht_insert, ds_insert. cbn [fst snd]. rewrite Z.eqb_refl. destruct (dget l (hash n)) as [[old|old|]|] eqn:E; cbn [ocell cell_items] in *.
  - destruct (dget_ok _ _ _ W E) as (_ & _ & H). inversion H as [|? ? Hh _]; subst. unfold is_item. destruct old as [n' e0]. cbn [fst] in *. destruct (name_eqb n' n) eqn:En.
    + apply name_eqb_spec in En. subst n'. rewrite Z.eqb_refl. eexists _, _. split; [reflexivity|]. split; [apply dput_wf; [exact W|]; repeat constructor; cbn; auto|].
      split; [reflexivity|]. split; [apply DH; now left|]. exists (dents (others (hash n) l)). rewrite dput_dents. split; [exact DS|reflexivity].
    + rewrite Z.eqb_refl. eexists _, _. split; [reflexivity|].
      assert (Nn : n' <> n) by (intros ->; now rewrite name_eqb_refl in En). split; [apply dput_wf; [exact W|]; split; [cbn [length]; lia|]; split; [cbn [cell_items map fst]; constructor; [intros [X|[]]; congruence|constructor; [intros []|constructor]]|cbn [cell_items]; constructor; [exact Hh|constructor; [reflexivity|constructor]]]|].
      split; [intros e1 I; apply DH in I; destruct I as [I|[]]; congruence|]. rewrite dput_dents, DS. cbn [ocell cell_items app]. apply perm_swap.
  - destruct (dget_ok _ _ _ W E) as (Lb & _ & H). cbn [cell_items] in H. pose proof (replace_spec name_eqb hash name_eqb_spec n (n, e) old eq_refl ND) as RS. destruct (replace_first name_eqb n (n, e) old) as [[o old']|] eqn:Er; rewrite ?Z.eqb_refl.
    + destruct RS as (R1 & R2 & R3 & R4 & R5). eexists _, _. split; [reflexivity|]. split.
      * apply dput_wf; [exact W|]. split; [lia|]. split; [cbn [cell_items]; now rewrite R3|]. cbn [cell_items]. apply Forall_forall. intros x Ix. apply R5 in Ix. destruct Ix as [->|[Ix _]]; [reflexivity|]. exact (proj1 (Forall_forall _ _) H x Ix).
      * destruct o as [n' e0]. cbn [fst] in R1. subst n'. split; [reflexivity|]. split; [now apply DH|].
        assert (RP : exists q, Permutation old ((n, e0) :: q) /\ Permutation old' ((n, e) :: q)).
        { clear - Er. revert old' Er. induction old as [|x old IH]; intros old' Er; [discriminate|]. cbn [replace_first] in Er. destruct (is_item name_eqb n x); [injection Er as -> <-; exists old; split; reflexivity|]. destruct (replace_first name_eqb n (n, e) old) as [[o l'']|]; [|discriminate]. injection Er as -> <-. destruct (IH l'' eq_refl) as (q & Q1 & Q2). exists (x :: q). rewrite Q1, Q2. split; apply perm_swap. }
        destruct RP as (q & Q1 & Q2). exists (q ++ dents (others (hash n) l)). rewrite dput_dents, DS. cbn [ocell cell_items]. rewrite Q1, Q2. split; reflexivity.
    + eexists _, _. split; [reflexivity|]. split.
      * apply dput_wf; [exact W|]. split; [rewrite app_length; cbn; lia|]. cbn [cell_items]. split.
        -- rewrite map_app. cbn [map fst]. apply (Permutation_NoDup (l := n :: map fst old)); [apply Permutation_cons_append|]. constructor; [|exact ND]. intros I. apply in_map_iff in I. destruct I as ([n' e0] & En & I). cbn [fst] in En. subst. exact (RS e0 I).
        -- apply Forall_app. split; [exact H|]. repeat constructor.
      * split; [intros e0 I; apply DH in I; exact (RS e0 I)|]. rewrite dput_dents, DS. cbn [ocell cell_items]. rewrite <- app_assoc. cbn [app]. symmetry. apply Permutation_middle.
  - now destruct (dget_ok _ _ _ W E).
  - rewrite Z.eqb_refl. eexists _, _. split; [reflexivity|]. split; [apply dput_wf; [exact W|]; repeat constructor; cbn; auto|]. split; [intros e0 I; apply DH in I; exact I|]. rewrite dput_dents, DS. reflexivity.
Qed.

Lemma dir_remove_spec l n : WFd l ->
  let '(r, l') := dir_remove hash l n in
  WFd l' /\
  match r with
  | Ok (n', e) => n' = n /\ In (n, e) (dents l) /\ Permutation (dents l) ((n, e) :: dents l')
  | NotFound => (forall e, ~ In (n, e) (dents l)) /\ Permutation (dents l') (dents l)
  | Panic => False
  end.
Proof.
  intros W. pose proof (dents_split (hash n) l W) as DS. pose proof (fun e0 => dents_hash l n e0 W) as DH. pose proof (ocell_nodup (hash n) l W) as ND.
  unfold dir_remove, ht_remove, ds_remove, ds_insert. cbn [fst snd]. destruct (dget l (hash n)) as [[old|old|]|] eqn:E; cbn [ocell cell_items] in *.
  - destruct (dget_ok _ _ _ W E) as (_ & _ & H). inversion H as [|? ? Hh _]; subst. unfold is_item. destruct old as [n' e0]. cbn [fst] in *. destruct (name_eqb n' n) eqn:En.
    + apply name_eqb_spec in En. subst n'. rewrite Z.eqb_refl. split; [now apply dput_wf|]. split; [reflexivity|]. split; [apply DH; now left|]. rewrite dput_dents. exact DS.
    + rewrite Z.eqb_refl. split; [apply dput_wf; [exact W|]; repeat constructor; cbn; auto|]. split; [intros e1 I; apply DH in I; destruct I as [I|[]]; injection I as -> ->; now rewrite name_eqb_refl in En|]. rewrite dput_dents, DS. reflexivity.
  - destruct (dget_ok _ _ _ W E) as (Lb & _ & H). cbn [cell_items] in H. pose proof (swap_spec name_eqb name_eqb_spec n old ND) as SS. destruct (swap_remove name_eqb n old) as [[y old']|].
    + destruct y as [n' e0]. cbn [fst] in SS. destruct SS as (-> & I & P). pose proof (Permutation_length P) as PL. cbn [length] in PL.
      assert (ND' : NoDup (map fst old')). { apply (Permutation_map fst) in P. apply Permutation_sym in P. apply (Permutation_NoDup P) in ND. cbn [map] in ND. now inversion ND. }
      assert (H' : Forall (fun x : name * ent => hash (fst x) = hash n) old'). { apply Forall_forall. intros x Ix. apply (proj1 (Forall_forall _ _) H). apply (Permutation_in _ P). now right. }
      destruct old' as [|x [|x' old'']]; [cbn in PL; lia| |]; rewrite Z.eqb_refl; (split; [apply dput_wf; [exact W|]; repeat split; cbn [length]; auto; lia|]); (split; [reflexivity|]); (split; [now apply DH|]); rewrite dput_dents, DS; cbn [ocell cell_items]; rewrite <- P; reflexivity.
    + rewrite Z.eqb_refl. split; [apply dput_wf; [exact W|]; exact (dget_ok _ _ _ W E)|]. split; [intros e1 I; apply DH in I; exact (SS e1 I)|]. rewrite dput_dents, DS. reflexivity.
  - now destruct (dget_ok _ _ _ W E).
  - rewrite Z.eqb_refl. split; [now apply dput_wf|]. split; [intros e1 I; apply DH in I; exact I|]. rewrite dput_dents, DS. reflexivity.
Qed.

(** the raw insertion of [Fs::link] drops every entry whose name has the same hash *)
Lemma raw_insert_spec l n e : WFd l ->
  WFd (dput l (hash n) (Some (Single (n, e)))) /\
  Permutation (dents (dput l (hash n) (Some (Single (n, e))))) ((n, e) :: filter (fun x => negb (hash (fst x) =? hash n)) (dents l)).
Proof.
  intros W. split; [apply dput_wf; [exact W|]; repeat constructor; cbn; auto|]. rewrite dput_dents. cbn [ocell cell_items app]. apply perm_skip.
  assert (G : forall p (a b : list (name * ent)), Permutation a b -> Permutation (filter p a) (filter p b)).
  { intros p a b P. induction P; cbn [filter]; [constructor| | |etransitivity; eauto]; [destruct (p x); auto|destruct (p x), (p y); try reflexivity; apply perm_swap]. }
  rewrite (G _ _ _ (dents_split (hash n) l W)). rewrite filter_app.
  assert (F0 : filter (fun x : name * ent => negb (hash (fst x) =? hash n)) (ocell (dget l (hash n))) = []).
  { destruct (dget l (hash n)) as [c|] eqn:E; [|reflexivity]. cbn [ocell]. destruct (dget_ok _ _ _ W E) as (_ & _ & H). clear - H. induction H as [|x xs Hx H IH]; [reflexivity|]. cbn [filter]. rewrite Hx, Z.eqb_refl. exact IH. }
  assert (F1 : filter (fun x : name * ent => negb (hash (fst x) =? hash n)) (dents (others (hash n) l)) = dents (others (hash n) l)).
  { pose proof (fun x => others_hash (hash n) l x W) as H. induction (dents (others (hash n) l)) as [|x xs IH]; [reflexivity|]. cbn [filter]. destruct (Z.eqb_spec (hash (fst x)) (hash n)) as [Eh|]; [exfalso; exact (H x (or_introl eq_refl) Eh)|]. cbn [negb]. f_equal. apply IH. intros y Iy. apply H. now right. }
  rewrite F0, F1. reflexivity.
Qed.
End Dir.
