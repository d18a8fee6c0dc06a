(** C89: extended attributes of files.  C90: the daemon's answers about them. *)
From Verif Require Import Common ZMap FSKey_Model FSKey_Props HTable_Model HTable_Props XAttr_Model XAttr_Proofs.
From Coq Require Import Permutation.

(** * What is asked for: every file has a map from names to values *)
Definition attrs := Z -> xname -> option (list Z).
Definition no_attrs : attrs := fun _ _ => None.
Definition name_dec (a b : xname) : {a = b} + {a <> b}.
Proof. decide equality; [apply (list_eq_dec Z.eq_dec)|decide equality]. Defined.

Inductive op :=
| Set_ (file : Z) (n : xname) (b : list Z) | Remove_ (file : Z) (n : xname)
| Get_ (file : Z) (n : xname) | Len (file : Z) (n : xname) | List_ (file : Z)
| Sync   (* the tree is written out *)
| Gone (file : Z). (* the file is deleted *)
Inductive answer := ADone | AValue (o : option (list Z)) | ALen (o : option Z) | AFound (b : bool) | ANames (l : list xname).

Definition next (m : attrs) (o : op) : attrs := fun i n =>
  match o with
  | Set_ j n' b => if Z.eq_dec i j then if name_dec n n' then Some b else m i n else m i n
  | Remove_ j n' => if Z.eq_dec i j then if name_dec n n' then None else m i n else m i n
  | Gone j => if Z.eq_dec i j then None else m i n
  | _ => m i n
  end.
Definition right (m : attrs) (o : op) (a : answer) : Prop :=
  match o with
  | Set_ _ _ _ | Sync | Gone _ => a = ADone
  | Remove_ i n => a = AFound (match m i n with Some _ => true | None => false end)
  | Get_ i n => a = AValue (m i n)
  | Len i n => a = ALen (match m i n with Some b => Some (Z.of_nat (length b)) | None => None end)
  | List_ i => exists l, a = ANames l /\ NoDup l /\ forall n, In n l <-> m i n <> None
  end.
Fixpoint all_right (m : attrs) (os : list op) (xs : list answer) : Prop :=
  match os, xs with
  | [], [] => True
  | o :: os, a :: xs => right m o a /\ all_right (next m o) os xs
  | _, _ => False
  end.
Definition ideal_after (os : list op) : attrs := fold_left next os no_attrs.

(** Inode numbers are below 2^64 - 1; a value's length is a u32 *)
Definition is_ino (i : Z) : Prop := 0 <= i < 2 ^ 64 - 1.
Definition legal (o : op) : Prop :=
  match o with
  | Set_ i _ b => is_ino i /\ Z.of_nat (length b) < 2 ^ 32
  | Remove_ i _ | Get_ i _ | Len i _ | List_ i | Gone i => is_ino i
  | Sync => True
  end.

(** * The model runs *)
Definition empty : xs := Xs [] [] 0 [].
Definition step (hash : xname -> Z) (d : xs) (o : op) : option (xs * answer) :=
  match o with
  | Set_ i n b => option_map (fun d => (d, ADone)) (setextattr hash d i n b)
  | Remove_ i n => option_map (fun '(d, b) => (d, AFound b)) (deleteextattr hash d i n)
  | Get_ i n => option_map (fun o => (d, AValue o)) (getextattr hash d i n)
  | Len i n => option_map (fun o => (d, ALen o)) (getextattrlen hash d i n)
  | List_ i => option_map (fun l => (d, ANames l)) (listextattr d i (fun l n => l ++ [n]) [])
  | Sync => Some (flush d, ADone)
  | Gone i => option_map (fun d => (d, ADone)) (delete_inode d i)
  end.
Fixpoint run (hash : xname -> Z) (d : xs) (os : list op) : option (xs * list answer) :=
  match os with
  | [] => Some (d, [])
  | o :: os => match step hash d o with
               | Some (d1, a) => match run hash d1 os with Some (d2, l) => Some (d2, a :: l) | None => None end
               | None => None
               end
  end.

(** the records that attributes refer to *)
Definition refers (v : xval) : list Z := match v with Blb r _ => [r] | Inl _ => [] end.
Definition referenced (d : xs) : list Z :=
  flat_map (fun p => match snd p with
                     | Single x => refers (snd x)
                     | Bucket l => flat_map (fun x => refers (snd x)) l
                     | Other => []
                     end) (x_tab d).

(** * Connection *)
Lemma NoDup_app_intro {A} (a b : list A) : NoDup a -> NoDup b -> (forall x, In x a -> In x b -> False) -> NoDup (a ++ b).
Proof.
  induction a as [|x a IH]; intros Ha Hb H; [exact Hb|]. inversion Ha; subst. cbn. constructor.
  - rewrite in_app_iff. intros [X|X]; [contradiction|]. apply (H x); [now left|exact X].
  - apply IH; auto. intros y Hy. apply H. now right.
Qed.
Section Connect.
Context (hash : xname -> Z).
Context (HB : forall n, 0 <= hash n < 2 ^ 56).

Definition vi (d : xs) (i : Z) : @dataset xname (list Z) := fun k => if in_rangeb (extattr_range i) k then view d k else None.
Definition short (m : attrs) : Prop := forall i n b, m i n = Some b -> zlen b < 2 ^ 32.
Definition Inv (d : xs) (m : attrs) : Prop :=
  wf d /\ short m /\ forall i, is_ino i -> inv (xkey hash i) (vi d i) (m i).
(** every key belongs to a file *)
Definition keyed (d : xs) : Prop := forall k, view d k <> None -> exists i, is_ino i /\ in_rangeb (extattr_range i) k = true.

Lemma range_arith i : extattr_range i = (i * 2 ^ 64 + 3 * 2 ^ 56, i * 2 ^ 64 + 4 * 2 ^ 56).
Proof. unfold extattr_range. cbn [discriminant]. rewrite !compose_arith by lia. f_equal; lia. Qed.
Lemma obj_range_arith i : is_ino i -> obj_range i = (i * 2 ^ 64, (i + 1) * 2 ^ 64).
Proof. unfold is_ino. intros H. unfold obj_range. rewrite Z.mod_small by lia. rewrite !compose_arith by lia. f_equal; lia. Qed.
Lemma xkey_arith i n : xkey hash i n = i * 2 ^ 64 + 3 * 2 ^ 56 + hash n.
Proof. unfold xkey. rewrite new_arith by (cbn; apply HB). reflexivity. Qed.
Lemma xkey_in i n : in_rangeb (extattr_range i) (xkey hash i n) = true.
Proof. unfold in_rangeb. rewrite range_arith, xkey_arith. cbn [fst snd]. pose proof (HB n). lia. Qed.
Lemma xkey_out i j n : i <> j -> in_rangeb (extattr_range j) (xkey hash i n) = false.
Proof. intros H. unfold in_rangeb. rewrite range_arith, xkey_arith. cbn [fst snd]. pose proof (HB n). lia. Qed.

Lemma next_short m o : legal o -> short m -> short (next m o).
Proof.
  intros L H i n b E. destruct o; cbn [next] in E; try (eapply H; exact E).
  - destruct (Z.eq_dec i file); [|eapply H; exact E]. destruct (name_dec n n0); [|eapply H; exact E]. injection E as <-. apply L.
  - destruct (Z.eq_dec i file); [|eapply H; exact E]. destruct (name_dec n n0); [discriminate|eapply H; exact E].
  - destruct (Z.eq_dec i file); [discriminate|eapply H; exact E].
Qed.

(** one key of file [i] is changed as the hash table would *)
Lemma local_inv d d' m i n (T : @dataset xname (list Z) -> @dataset xname (list Z)) v :
  is_ino i -> wf d' -> (forall i, is_ino i -> inv (xkey hash i) (vi d i) (m i)) ->
  (forall A B, A (xkey hash i n) = B (xkey hash i n) -> T A (xkey hash i n) = T B (xkey hash i n)) ->
  (forall A k', k' <> xkey hash i n -> T A k' = A k') ->
  (forall k', view d' k' = T (view d) k') ->
  inv (xkey hash i) (T (vi d i)) (sset xsame (m i) n v) ->
  forall j, is_ino j -> inv (xkey hash j) (vi d' j) (fun n' => if Z.eq_dec j i then if name_dec n' n then v else m j n' else m j n').
Proof.
  intros Li Hwf HI T1 T2 HV HT j Lj. set (k := xkey hash i n) in *. destruct (Z.eq_dec j i) as [->|Hne].
  - eapply inv_ext; [| |exact HT].
    + intros k'. unfold vi at 2. destruct (Z.eq_dec k' k) as [->|Hk].
      * assert (Hin : in_rangeb (extattr_range i) k = true) by apply xkey_in. rewrite Hin, HV. apply T1. unfold vi. now rewrite Hin.
      * rewrite T2 by exact Hk. unfold vi. destruct (in_rangeb (extattr_range i) k'); [|reflexivity]. now rewrite HV, T2.
    + intros n'. unfold sset. destruct (name_dec n' n) as [->|Hn].
      * now rewrite (proj2 (xsame_spec n n) eq_refl).
      * destruct (xsame n' n) eqn:E; [apply xsame_spec in E; contradiction|reflexivity].
  - eapply inv_ext; [| |exact (HI j Lj)].
    + intros k'. unfold vi. destruct (in_rangeb (extattr_range j) k') eqn:E; [|reflexivity]. rewrite HV, T2; [reflexivity|].
      intros ->. unfold k in E. rewrite xkey_out in E by (intros ->; contradiction). discriminate.
    + reflexivity.
Qed.

Lemma keyed_local d d' i n (T : @dataset xname (list Z) -> @dataset xname (list Z)) : is_ino i -> keyed d ->
  (forall A k', k' <> xkey hash i n -> T A k' = A k') -> (forall k', view d' k' = T (view d) k') -> keyed d'.
Proof.
  intros Li K HT HV k Hk. destruct (Z.eq_dec k (xkey hash i n)) as [->|Hne]; [exists i; split; [exact Li|apply xkey_in]|].
  rewrite HV, HT in Hk by exact Hne. now apply K.
Qed.
Lemma set_ok d m i n b : Inv d m -> is_ino i -> exists d', setextattr hash d i n b = Some d' /\ wf d' /\ (keyed d -> keyed d') /\
  forall j, is_ino j -> inv (xkey hash j) (vi d' j) (next m (Set_ i n b) j).
Proof.
  intros (H1 & _ & H3) Li. unfold setextattr. set (k := xkey hash i n).
  assert (Lo := fun A B (E : A k = B k) => ht_insert_local (V := list Z) A B k (n, b) E).
  assert (Ek : vi d i k = view d k) by (unfold vi, k; now rewrite xkey_in).
  destruct (step_ok xsame (xkey hash i) xsame_spec (vi d i) (m i) (Insert n b) (H3 i Li)) as [S1 S2]. cbn [model_step] in S1, S2.
  fold k in S1, S2. assert (HP : fst (ht_insert xsame (view d) k (n, b)) <> Panic).
  { rewrite <- (proj1 (Lo _ _ Ek)). destruct (ht_insert xsame (vi d i) k (n, b)) as [[[x|]| |] D]; cbn in *; discriminate. }
  destruct (h_insert_ok d k (n, b) H1 HP) as (d' & E & Hw & HV). rewrite E. exists d'. split; [reflexivity|]. split; [exact Hw|].
  split; [intros K; apply (keyed_local d d' i n (fun A => snd (ht_insert xsame A k (n, b))) Li K); [intros A k' Hk; apply (Lo A A eq_refl); exact Hk|exact HV]|].
  intros j Lj. apply (local_inv d d' m i n (fun A => snd (ht_insert xsame A k (n, b))) (Some b) Li Hw H3); auto.
  - intros A B E'. apply Lo. exact E'.
  - intros A k' Hk. apply (Lo A A eq_refl). exact Hk.
  - destruct (ht_insert xsame (vi d i) k (n, b)) as [r D]. exact S2.
Qed.

Lemma remove_ok d m i n : Inv d m -> is_ino i ->
  exists d', deleteextattr hash d i n = Some (d', match m i n with Some _ => true | None => false end) /\ wf d' /\ (keyed d -> keyed d') /\
  forall j, is_ino j -> inv (xkey hash j) (vi d' j) (next m (Remove_ i n) j).
Proof.
  intros (H1 & _ & H3) Li. unfold deleteextattr. set (k := xkey hash i n).
  assert (Lo := fun A B (E : A k = B k) => ht_remove_local (V := list Z) A B k n E).
  assert (Ek : vi d i k = view d k) by (unfold vi, k; now rewrite xkey_in).
  destruct (step_ok xsame (xkey hash i) xsame_spec (vi d i) (m i) (Remove n) (H3 i Li)) as [S1 S2]. cbn [model_step] in S1, S2.
  fold k in S1, S2. pose proof (proj1 (Lo _ _ Ek)) as Ef.
  assert (HP : fst (ht_remove xsame (view d) k n) <> Panic).
  { rewrite <- Ef. destruct (ht_remove xsame (vi d i) k n) as [[x| |] D]; cbn in *; discriminate. }
  destruct (h_remove_ok d k n H1 HP) as (d' & E & Hw & HV). rewrite E. exists d'. split; [|split; [exact Hw|split]].
  - rewrite <- Ef. destruct (ht_remove xsame (vi d i) k n) as [[x| |] D]; cbn in S1 |- *; try discriminate; injection S1 as S1; rewrite <- S1; reflexivity.
  - intros K. apply (keyed_local d d' i n (fun A => snd (ht_remove xsame A k n)) Li K); [intros A k' Hk; apply (Lo A A eq_refl); exact Hk|exact HV].
  - intros j Lj. apply (local_inv d d' m i n (fun A => snd (ht_remove xsame A k n)) None Li Hw H3); auto.
    + intros A B E'. apply Lo. exact E'.
    + intros A k' Hk. apply (Lo A A eq_refl). exact Hk.
    + destruct (ht_remove xsame (vi d i) k n) as [r D]. exact S2.
Qed.

(** values in the table *)
Lemma val_in d k c v : wf d -> zm_get k (x_tab d) = Some c -> In v (cvals c) ->
  val_bytes d v = Some (bytes (x_recs d) v) /\ val_len v = u32 (zlen (bytes (x_recs d) v)).
Proof.
  intros [H1 H2] Hg Hv. pose proof (w_len _ _ _ _ H2) as Hl. rewrite Forall_forall in Hl.
  assert (Hin : In v (tv (x_tab d) ++ [])) by (rewrite app_nil_r; eapply in_tv; eauto). specialize (Hl v Hin).
  destruct v as [b|r l]; cbn in *; [auto|]. destruct Hl as (b & -> & ->). auto.
Qed.
Lemma find_bitem recs n l : find (is_item xsame n) (map (bitem recs) l) = option_map (bitem recs) (find (fun x => xsame (fst x) n) l).
Proof. induction l as [|x l IH]; [reflexivity|]. cbn [map find]. unfold is_item at 1. cbn [bitem fst]. destruct (xsame (fst x) n); [reflexivity|exact IH]. Qed.

Lemma get_ok d m i n : Inv d m -> is_ino i -> getextattr hash d i n = Some (m i n) /\
  getextattrlen hash d i n = Some (match m i n with Some b => Some (zlen b) | None => None end).
Proof.
  intros (H1 & Hs & H3) Li.
  destruct (step_ok xsame (xkey hash i) xsame_spec (vi d i) (m i) (Get n) (H3 i Li)) as [S1 _]. cbn [model_step spec_step fst] in S1.
  assert (Ek : vi d i (xkey hash i n) = view d (xkey hash i n)) by (unfold vi; now rewrite xkey_in).
  unfold ht_get in S1. rewrite Ek in S1. unfold view in S1. unfold getextattr, getextattrlen.
  assert (Q : forall b, m i n = Some b -> u32 (zlen b) = zlen b).
  { intros b E. unfold u32. apply Z.mod_small. specialize (Hs i n b E). unfold zlen in *. lia. }
  destruct (zm_get (xkey hash i n) (x_tab d)) as [c|] eqn:Eg; cbn [option_map] in S1; [|injection S1 as <-; auto].
  destruct c as [x|l|]; cbn [bcell] in S1.
  - unfold is_item in S1. cbn [bitem fst] in S1. destruct (xsame (fst x) n); [|injection S1 as <-; auto].
    cbn [bitem snd] in S1. injection S1 as S1. destruct (val_in d _ _ (snd x) H1 Eg) as [E1 E2]; [now left|].
    rewrite E1, E2. symmetry in S1. rewrite S1. rewrite (Q _ S1). auto.
  - rewrite map_length, find_bitem in S1. destruct (length l <=? 1)%nat; [discriminate|].
    destruct (find (fun x => xsame (fst x) n) l) as [x|] eqn:Ef; cbn [option_map] in S1; [|injection S1 as <-; auto].
    cbn [bitem snd] in S1. injection S1 as S1. apply find_some in Ef. destruct Ef as [Hin _].
    destruct (val_in d _ _ (snd x) H1 Eg) as [E1 E2]; [unfold cvals; now apply in_map|].
    rewrite E1, E2. symmetry in S1. rewrite S1. rewrite (Q _ S1). auto.
  - discriminate.
Qed.

(** listing *)
Definition cnames (c : @cell xname xval) : list xname := map fst (cell_items c).
Definition tnames (L : list (Z * @cell xname xval)) : list xname := flat_map (fun p => cnames (snd p)) L.
Lemma fold_items {B} (f : B -> xname -> B) (l : list (xname * xval)) : forall b,
  fold_left (fun b x => f b (fst x)) l b = fold_left f (map fst l) b.
Proof. induction l as [|x l IH]; intros b; [reflexivity|apply IH]. Qed.
Lemma fold_cells_ok {B} (f : B -> xname -> B) L : forall b, (forall p, In p L -> snd p <> Other) ->
  fold_cells f b L = Some (fold_left f (tnames L) b).
Proof.
  induction L as [|[k c] L IH]; intros b H; [reflexivity|].
  assert (Hc : c <> Other) by (apply (H (k, c)); now left).
  change (tnames ((k, c) :: L)) with (cnames c ++ tnames L). rewrite fold_left_app.
  assert (IH' := fun b => IH b (fun p Hp => H p (or_intror Hp))).
  destruct c as [x|l|]; [| |contradiction]; cbn [fold_cells]; rewrite IH', fold_items; reflexivity.
Qed.

Lemma list_inv d m i : Inv d m -> is_ino i -> let L := t_range d (extattr_range i) in
  (forall p, In p L -> snd p <> Other) /\ NoDup (tnames L) /\ forall n, In n (tnames L) <-> m i n <> None.
Proof.
  intros (H1 & _ & H3) Li L. specialize (H3 i Li). destruct H1 as [Hok _].
  assert (HokL : zm_ok L) by (now apply zm_ok_filter).
  assert (HL : forall k c, In (k, c) L -> vi d i k = Some (bcell (x_recs d) c)).
  { intros k c Hin. apply filter_In in Hin. destruct Hin as [Hin Hr]. cbn in Hr. unfold vi. rewrite Hr. unfold view. now rewrite (zm_in_get _ _ _ Hok Hin). }
  assert (Hnames : forall c, map fst (match bcell (x_recs d) c with Single x => [x] | Bucket l => l | Other => [] end) = cnames c).
  { intros [x|l|]; try reflexivity. cbn. rewrite map_map. reflexivity. }
  assert (Hcell : forall k c, In (k, c) L -> c <> Other /\ NoDup (cnames c) /\ forall n, In n (cnames c) <-> xkey hash i n = k /\ m i n <> None).
  { intros k c Hin. specialize (H3 k). unfold items in H3. rewrite (HL k c Hin) in H3. destruct H3 as (A1 & A2 & A3). split; [|split].
    - intros ->. exact A1.
    - rewrite <- Hnames. exact A2.
    - intros n. rewrite <- Hnames. rewrite in_map_iff. split.
      + intros ([n' v] & <- & Hx). apply A3 in Hx. cbn. destruct Hx as [X1 X2]. split; [exact X1|congruence].
      + intros [X1 X2]. destruct (m i n) as [v|] eqn:E; [|contradiction]. exists (n, v). split; [reflexivity|]. apply A3. auto. }
  split; [|split].
  - intros [k c] Hp. apply (Hcell k c Hp).
  - clear HL. clearbody L. induction L as [|[k c] L IH]; [constructor|]. apply zm_ok_cons in HokL. destruct HokL as [O1 O2].
    change (tnames ((k, c) :: L)) with (cnames c ++ tnames L).
    assert (Hh := Hcell k c ltac:(now left)). assert (Ht := fun k' c' Hin => Hcell k' c' (or_intror Hin)). specialize (IH O1 Ht).
    apply NoDup_app_intro; [apply Hh|exact IH|].
    intros n Hn Hin. apply Hh in Hn. apply in_flat_map in Hin. destruct Hin as ([k' c'] & Hin & Hn').
    rewrite Forall_forall in O2. specialize (O2 _ Hin). apply Ht in Hin. cbn in *. apply Hin in Hn'. destruct Hn, Hn'. lia.
  - intros n. unfold tnames. rewrite in_flat_map. split.
    + intros ([k c] & Hin & Hn). apply (Hcell k c Hin) in Hn. apply Hn.
    + intros Hm. destruct (m i n) as [v|] eqn:E; [|contradiction]. destruct (H3 (xkey hash i n)) as (_ & _ & A3).
      assert (Hx : In (n, v) (items (vi d i) (xkey hash i n))) by (apply A3; auto). unfold items, vi in Hx. rewrite xkey_in in Hx.
      unfold view in Hx. destruct (zm_get (xkey hash i n) (x_tab d)) as [c|] eqn:Eg; cbn [option_map] in Hx; [|destruct Hx].
      exists (xkey hash i n, c). split; [|cbn; rewrite <- Hnames; now apply (in_map fst) in Hx].
      apply filter_In. split; [now apply zm_get_in|]. cbn. apply xkey_in.
Qed.

Lemma gone_ok d m i : Inv d m -> is_ino i -> exists d', delete_inode d i = Some d' /\ wf d' /\ (keyed d -> keyed d') /\
  forall j, is_ino j -> inv (xkey hash j) (vi d' j) (next m (Gone i) j).
Proof.
  intros (H1 & _ & H3) Li. destruct (range_delete_ok d (obj_range i) H1) as (d' & E & Hw & HV). exists d'. split; [exact E|]. split; [exact Hw|].
  split; [intros K k Hk; rewrite HV in Hk; destruct (in_rangeb (obj_range i) k); [contradiction|now apply K]|].
  intros j Lj. unfold next. destruct (Z.eq_dec j i) as [->|Hne].
  - intros k. unfold items, vi. rewrite HV. assert (Er : (if in_rangeb (extattr_range i) k then if in_rangeb (obj_range i) k then None else view d k else None) = None).
    { destruct (in_rangeb (extattr_range i) k) eqn:R; [|reflexivity]. assert (R' : in_rangeb (obj_range i) k = true); [|now rewrite R'].
      unfold in_rangeb in *. rewrite obj_range_arith by exact Li. rewrite range_arith in R. cbn [fst snd] in *. lia. }
    rewrite Er. split; [exact I|]. split; [constructor|]. intros n v. cbn. split; [tauto|intros [_ X]; discriminate].
  - eapply inv_ext; [| |exact (H3 j Lj)]; [|reflexivity]. intros k. unfold vi. destruct (in_rangeb (extattr_range j) k) eqn:R; [|reflexivity].
    rewrite HV. assert (R' : in_rangeb (obj_range i) k = false); [|now rewrite R'].
    unfold in_rangeb in *. rewrite obj_range_arith by exact Li. rewrite range_arith in R. cbn [fst snd] in *. unfold is_ino in *. lia.
Qed.

Lemma step_inv d m o : legal o -> Inv d m -> exists d' a, step hash d o = Some (d', a) /\ right m o a /\ Inv d' (next m o) /\ (keyed d -> keyed d').
Proof.
  intros L HI. pose proof HI as (H1 & H2 & H3). assert (S' : short (next m o)) by (now apply next_short).
  destruct o as [i n b|i n|i n|i n|i| |i]; cbn [step legal right] in *.
  - destruct (set_ok d m i n b HI (proj1 L)) as (d' & E & A & K & B). rewrite E. exists d', ADone. split; [reflexivity|]. split; [reflexivity|]. split; [|exact K]. split; [exact A|]. split; [exact S'|exact B].
  - destruct (remove_ok d m i n HI L) as (d' & E & A & K & B). rewrite E. exists d'. eexists. split; [reflexivity|]. split; [reflexivity|]. split; [|exact K]. split; [exact A|]. split; [exact S'|exact B].
  - destruct (get_ok d m i n HI L) as [E _]. rewrite E. exists d. eexists. split; [reflexivity|]. split; [reflexivity|]. split; [exact HI|auto].
  - destruct (get_ok d m i n HI L) as [_ E]. rewrite E. exists d. eexists. split; [reflexivity|]. split; [reflexivity|]. split; [exact HI|auto].
  - destruct (list_inv d m i HI L) as (A & B & C). unfold listextattr. rewrite fold_cells_ok by exact A. exists d. eexists. split; [reflexivity|]. split; [|split; [exact HI|auto]].
    eexists. split; [reflexivity|]. assert (E : forall l acc, fold_left (fun (l : list xname) n => l ++ [n]) l acc = acc ++ l).
    { induction l as [|x l IH]; intros acc; cbn; [now rewrite app_nil_r|]. rewrite IH, <- app_assoc. reflexivity. }
    rewrite E. cbn [app]. auto.
  - destruct (flush_ok d H1) as [A B]. exists (flush d), ADone. split; [reflexivity|]. split; [reflexivity|].
    split; [|intros K k Hk; apply K; now rewrite <- B]. split; [exact A|]. split; [exact S'|].
    intros j Lj. eapply inv_ext; [| |exact (H3 j Lj)]; [|reflexivity]. intros k. unfold vi. now rewrite B.
  - destruct (gone_ok d m i HI L) as (d' & E & A & K & B). rewrite E. exists d', ADone. split; [reflexivity|]. split; [reflexivity|]. split; [|exact K]. split; [exact A|]. split; [exact S'|exact B].
Qed.

Lemma empty_inv : Inv empty no_attrs.
Proof.
  split; [|split].
  - split; [constructor|]. constructor; cbn; [constructor|constructor|constructor|lia|constructor].
  - intros i n b E. discriminate.
  - intros i _ k. unfold items, vi, view. cbn. destruct (in_rangeb _ _); (split; [exact I|]; split; [constructor|]; intros n v; cbn; split; [tauto|intros [_ X]; discriminate]).
Qed.

Lemma run_inv os : forall d m, Forall legal os -> Inv d m -> keyed d ->
  exists d' l, run hash d os = Some (d', l) /\ all_right m os l /\ Inv d' (fold_left next os m) /\ keyed d'.
Proof.
  induction os as [|o os IH]; intros d m L HI K; cbn [run fold_left].
  - exists d, []. split; [reflexivity|]. split; [exact I|]. split; [exact HI|exact K].
  - inversion L; subst. destruct (step_inv d m o H1 HI) as (d1 & a & E & R & HI1 & K1). rewrite E.
    destruct (IH d1 (next m o) H2 HI1 (K1 K)) as (d2 & l & E2 & R2 & HI2). rewrite E2. exists d2, (a :: l). split; [reflexivity|]. split; [split; assumption|exact HI2].
Qed.
Lemma empty_keyed : keyed empty. Proof. intros k Hk. now contradict Hk. Qed.
End Connect.

(** * C89 *)
(** Every answer is that of the map, whatever hashes are equal and whenever the tree is written out. *)
Theorem C89_attributes hash os : (forall n, 0 <= hash n < 2 ^ 56) -> Forall legal os ->
  exists d xs, run hash empty os = Some (d, xs) /\ all_right no_attrs os xs.
Proof.
  intros HB L. destruct (run_inv hash HB os empty no_attrs L (empty_inv hash) empty_keyed) as (d & l & E & R & _). eauto.
Qed.

(** What the callers' functions are applied to when listing: each name once. *)
Theorem C89_packing hash os d xs i : (forall n, 0 <= hash n < 2 ^ 56) -> Forall legal os -> is_ino i ->
  run hash empty os = Some (d, xs) ->
  exists l, NoDup l /\ (forall n, In n l <-> ideal_after os i n <> None) /\
    (forall B (f : B -> xname -> B) b, listextattr d i f b = Some (fold_left f l b)) /\
    (forall f, listextattrlen d i f = Some (fold_left (fun s n => (s + f n) mod 2 ^ 32) l 0)).
Proof.
  intros HB L Li E. destruct (run_inv hash HB os empty no_attrs L (empty_inv hash) empty_keyed) as (d' & l & E' & _ & HI & _).
  rewrite E in E'. injection E' as <- <-. destruct (list_inv hash HB d _ i HI Li) as (A & B & C).
  exists (tnames (t_range d (extattr_range i))). split; [exact B|]. split; [exact C|]. split.
  - intros T f b. unfold listextattr. now apply fold_cells_ok.
  - intros f. unfold listextattrlen. now rewrite fold_cells_ok.
Qed.

Lemma rids_tv tab : rids (tv tab) = referenced (Xs tab [] 0 []).
Proof.
  unfold referenced. cbn [x_tab]. induction tab as [|[k c] tab IH]; [reflexivity|]. change (tv ((k, c) :: tab)) with (cvals c ++ tv tab).
  rewrite rids_app, IH. cbn [flat_map snd]. f_equal. destruct c as [x|l|]; [apply app_nil_r| |reflexivity]. unfold cvals, cell_items.
  induction l as [|x l IHl]; [reflexivity|]. cbn [map flat_map]. rewrite <- IHl. reflexivity.
Qed.
(** Every record that was ever made is either referred to by one attribute, or was freed once. *)
Theorem C89_no_record_leaked hash os d xs : (forall n, 0 <= hash n < 2 ^ 56) -> Forall legal os -> run hash empty os = Some (d, xs) ->
  Permutation (referenced d) (map fst (x_recs d)) /\ NoDup (referenced d ++ x_freed d) /\
  forall r, In r (referenced d ++ x_freed d) <-> 0 <= r < x_next d.
Proof.
  intros HB L E. destruct (run_inv hash HB os empty no_attrs L (empty_inv hash) empty_keyed) as (d' & l & E' & _ & HI & _).
  rewrite E in E'. injection E' as <- <-. destruct HI as ((_ & HW) & _). rewrite app_nil_r in HW. destruct HW as [A B C D F].
  rewrite rids_tv in B. change (referenced (Xs (x_tab d) [] 0 [])) with (referenced d) in B. split; [exact B|].
  assert (Q : Permutation (referenced d ++ x_freed d) (zrange 0 (x_next d))) by (rewrite B; exact C).
  split; [eapply Permutation_NoDup; [symmetry; exact Q|apply NoDup_zrange]|]. intros r. rewrite <- in_zrange. split; apply Permutation_in; [exact Q|now symmetry].
Qed.

(** When no file has attributes any more, because they were removed or because their files were deleted, nothing is left. *)
Theorem C89_all_freed hash os d xs : (forall n, 0 <= hash n < 2 ^ 56) -> Forall legal os -> run hash empty os = Some (d, xs) ->
  (forall i n, is_ino i -> ideal_after os i n = None) -> x_tab d = [] /\ x_recs d = [].
Proof.
  intros HB L E HN. destruct (run_inv hash HB os empty no_attrs L (empty_inv hash) empty_keyed) as (d' & l & E' & _ & HI & K).
  rewrite E in E'. injection E' as <- <-. destruct HI as ((Ho & HW) & _ & H3).
  assert (Ht : x_tab d = []).
  { destruct (x_tab d) as [|[k c] t] eqn:Et; [reflexivity|]. exfalso.
    assert (Hv : view d k = Some (bcell (x_recs d) c)). { unfold view. rewrite Et. cbn [zm_get]. now rewrite Z.eqb_refl. }
    destruct (K k) as (i & Li & R); [congruence|]. destruct (H3 i Li k) as (S1 & _ & S3). unfold items, vi in S1, S3. rewrite R, Hv in S1, S3.
    destruct c as [[n v]|[|[n v] ll]|]; cbn [bcell map length] in S1, S3.
    - destruct (proj1 (S3 n (bytes (x_recs d) v)) ltac:(now left)) as [_ X]. unfold ideal_after in HN. rewrite HN in X by exact Li. discriminate.
    - lia.
    - destruct (proj1 (S3 n (bytes (x_recs d) v)) ltac:(now left)) as [_ X]. unfold ideal_after in HN. rewrite HN in X by exact Li. discriminate.
    - exact S1. }
  split; [exact Ht|]. rewrite Ht in HW. cbn in HW. pose proof (w_refs _ _ _ _ HW) as P. apply Permutation_nil in P. now destruct (x_recs d).
Qed.

(** All names collide; values get records, lose them when a neighbour changes, and are freed with their files. *)
Definition n1 : xname := (User, [97]). Definition n2 : xname := (System, [97]). Definition n3 : xname := (User, [98; 99]).
Definition big (x : Z) : list Z := repeat x (Z.to_nat 1025).
Definition ex_ops : list op :=
  [Set_ 3 n1 (big 1); Sync; Set_ 3 n2 [7; 8]; Set_ 5 n1 (big 2); Set_ 3 n3 (big 3); Sync; Get_ 3 n1; Len 3 n3; List_ 3; Set_ 3 n1 [9];
   Sync; Remove_ 3 n2; Get_ 3 n2; Get_ 5 n1; Gone 3; Get_ 3 n3; List_ 5].
Example C89_example : Forall legal ex_ops /\ exists d xs, run (fun _ => 0) empty ex_ops = Some (d, xs) /\
  xs = [ADone; ADone; ADone; ADone; ADone; ADone; AValue (Some (big 1)); ALen (Some 1025); ANames [n1; n2; n3]; ADone;
        ADone; AFound true; AValue None; AValue (Some (big 2)); ADone; AValue None; ANames [n1]] /\
  map fst (x_recs d) = [3] /\ x_freed d = [0; 1; 2; 4].
Proof.
  split.
  - assert (B : forall x, Z.of_nat (length (big x)) < 2 ^ 32) by (intros x; unfold big; rewrite repeat_length; lia).
    unfold ex_ops. repeat (apply Forall_cons; [cbn [legal]; unfold is_ino; repeat split; try lia; try apply B; cbn; lia|]). constructor.
  - eexists. eexists. split; [vm_compute; reflexivity|]. split; [reflexivity|]. split; reflexivity.
Qed.

Print Assumptions C89_attributes.
Print Assumptions C89_packing.
Print Assumptions C89_no_record_leaked.
Print Assumptions C89_all_freed.
