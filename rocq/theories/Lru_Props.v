(** C19: the cache is an LRU list bounded by its capacity. *)
From Verif Require Import Common Lru_Model.

Section Spec.
Context {V : Type} (space : V -> Z).

(** Specification: the entries, least recently used first. *)
Definition lruspec := list (Z * V).
Definition total (l : lruspec) : Z := fold_right (fun x s => space (snd x) + s) 0 l.
Definition without (k : Z) (l : lruspec) : lruspec := filter (fun x => negb (fst x =? k)) l.
Fixpoint lookup (k : Z) (l : lruspec) : option V :=
  match l with [] => None | (k', v) :: l' => if k' =? k then Some v else lookup k l' end.
(** Forget the oldest entries until [n] bytes fit *)
Fixpoint evict (cap n : Z) (l : lruspec) : lruspec :=
  if cap <? total l + n then match l with [] => [] | _ :: l' => evict cap n l' end else l.

Inductive op := Get (k : Z) | Peek (k : Z) | Insert (k : Z) (v : V) | Remove (k : Z) | DropAll.
Definition spec_step (cap : Z) (l : lruspec) (o : op) : option V * lruspec :=
  match o with
  | Get k => match lookup k l with
             | Some v => (Some v, without k l ++ [(k, v)])
             | None => (None, l)
             end
  | Peek k => (lookup k l, l)
  | Insert k v => (None, let l' := evict cap (space v) l in
                   match lookup k l' with Some _ => l' | None => l' ++ [(k, v)] end)
  | Remove k => (lookup k l, without k l)
  | DropAll => (None, [])
  end.
(** The two ways a caller can misuse [insert]: an item larger than the whole cache, and a
    second, different value for a cached key. *)
Definition legal (cap : Z) (l : lruspec) (o : op) : Prop :=
  match o with
  | Insert k v => space v <= cap /\ forall w, lookup k l = Some w -> w = v
  | _ => True
  end.
Fixpoint legal_run (cap : Z) (l : lruspec) (ops : list op) : Prop :=
  match ops with
  | [] => True
  | o :: ops' => legal cap l o /\ legal_run cap (snd (spec_step cap l o)) ops'
  end.
Fixpoint spec_run (cap : Z) (l : lruspec) (ops : list op) : list (option V) * lruspec :=
  match ops with
  | [] => ([], l)
  | o :: ops' => let '(r, l1) := spec_step cap l o in
                 let '(rs, l2) := spec_run cap l1 ops' in (r :: rs, l2)
  end.
End Spec.

Section Run.
Context {V : Type} (space : V -> Z) (veq : V -> V -> bool).
Definition model_step (c : @cache V) (o : op) : option (option V * cache) :=
  match o with
  | Get k => get c k
  | Peek k => Some (get_ref c k, c)
  | Insert k v => match insert space veq c k v with Some c' => Some (None, c') | None => None end
  | Remove k => remove space c k
  | DropAll => Some (None, drop_cache c)
  end.
Fixpoint model_run (c : cache) (ops : list op) : option (list (option V) * cache) :=
  match ops with
  | [] => Some ([], c)
  | o :: ops' => match model_step c o with
                 | None => None
                 | Some (r, c1) => match model_run c1 ops' with
                                   | None => None
                                   | Some (rs, c2) => Some (r :: rs, c2)
                                   end
                 end
  end.
End Run.

Section Proofs.
Context {V : Type} (space : V -> Z) (veq : V -> V -> bool).
Context (space_nonneg : forall v, 0 <= space v) (veq_spec : forall a b, veq a b = true <-> a = b).
Notation entry := (@entry V).
Notation cache := (@cache V).
Implicit Types (l a b : list (Z * V)) (s : Z -> option entry).

Definition hd_key (l : list (Z * V)) (q : option Z) : option Z :=
  match l with [] => q | (k, _) :: _ => Some k end.
Fixpoint last_key (p : option Z) (l : list (Z * V)) : option Z :=
  match l with [] => p | (k, _) :: l' => last_key (Some k) l' end.

(** The entry the store must have for key [k] when the list is [l], with neighbours [p]
    and [q] outside it. *)
Fixpoint ent (p q : option Z) (l : list (Z * V)) (k : Z) : option entry :=
  match l with
  | [] => None
  | (k0, v) :: l' => if k =? k0 then Some (Entry v p (hd_key l' q)) else ent (Some k0) q l' k
  end.

Lemma ent_app p q a b k :
  ent p q (a ++ b) k =
  match ent p (hd_key b q) a k with Some e => Some e | None => ent (last_key p a) q b k end.
Proof.
  revert p. induction a as [|[k0 v] a IH]; intros p; cbn [app ent last_key]; [reflexivity|].
  destruct (k =? k0).
  - destruct a as [|[k1 v1] a]; reflexivity.
  - apply IH.
Qed.

Lemma ent_none p q l k : ~ In k (map fst l) -> ent p q l k = None.
Proof.
  revert p. induction l as [|[k0 v] l IH]; intros p H; cbn [ent map fst In] in *; [reflexivity|].
  destruct (Z.eqb_spec k k0); [subst; tauto|]. apply IH. tauto.
Qed.

Lemma ent_some p q l k e : ent p q l k = Some e -> In k (map fst l).
Proof.
  intros H. destruct (in_dec Z.eq_dec k (map fst l)) as [|n]; [assumption|].
  rewrite (ent_none p q l k n) in H. discriminate.
Qed.

Lemma last_key_app p a b : last_key p (a ++ b) = last_key (last_key p a) b.
Proof. revert p. induction a as [|[k v] a IH]; intros p; cbn; auto. Qed.

Lemma hd_key_app a b q : hd_key (a ++ b) q = hd_key a (hd_key b q).
Proof. destruct a as [|[k v] a]; reflexivity. Qed.

Lemma put_same s k e : put s k e k = e. Proof. unfold put. now rewrite Z.eqb_refl. Qed.
Lemma put_other s k e k' : k' <> k -> put s k e k' = s k'.
Proof. intros. unfold put. destruct (Z.eqb_spec k' k); [contradiction|reflexivity]. Qed.

Definition wf (c : cache) (l : list (Z * V)) : Prop :=
  NoDup (map fst l) /\ (forall k, store c k = ent None None l k) /\
  lru c = hd_key l None /\ mru c = last_key None l /\
  size c = total space l /\ len c = length l.

Lemma total_app a b : total space (a ++ b) = total space a + total space b.
Proof. induction a as [|[k v] a IH]; cbn [total app fold_right snd] in *; [reflexivity|]. unfold total in *. lia. Qed.

Lemma total_nonneg l : 0 <= total space l.
Proof. induction l as [|[k v] l IH]; cbn [total fold_right snd]; [lia|]. pose proof (space_nonneg v). unfold total in IH. lia. Qed.

Lemma find_split l k : NoDup (map fst l) ->
  match lookup k l with
  | Some v => exists a b, l = a ++ (k, v) :: b /\ without k l = a ++ b /\ ~ In k (map fst a) /\ ~ In k (map fst b)
  | None => ~ In k (map fst l) /\ without k l = l
  end.
Proof.
  induction l as [|[k0 v0] l IH]; cbn [lookup map fst without filter]; intros Hnd; [auto|].
  inversion Hnd as [|? ? Hni Hnd']; subst. specialize (IH Hnd').
  destruct (Z.eqb_spec k0 k) as [->|Hne]; cbn [negb].
  - exists [], l. repeat split; auto. cbn [app].
    clear -Hni. induction l as [|[k1 v1] l IH]; cbn in *; [reflexivity|].
    destruct (Z.eqb_spec k1 k); [subst; tauto|]. cbn. f_equal. apply IH. tauto.
  - destruct (lookup k l) as [v|].
    + destruct IH as (a & b & -> & E & Ha & Hb). exists ((k0, v0) :: a), b. cbn [app map fst In].
      repeat split; auto; [|tauto]. unfold without in E. now rewrite E.
    + destruct IH as [H E]. split; [cbn; tauto|]. unfold without in E. now rewrite E.
Qed.

Lemma ent_mid p q a b k v : ~ In k (map fst a) ->
  ent p q (a ++ (k, v) :: b) k = Some (Entry v (last_key p a) (hd_key b q)).
Proof. intros H. rewrite ent_app, (ent_none _ _ a k H). cbn [ent]. now rewrite Z.eqb_refl. Qed.

Lemma ent_set_lru_mid p q a b k v x k' : ~ In k (map fst a) ->
  put (ent p q (a ++ (k, v) :: b)) k (Some (Entry v x (hd_key b q))) k' =
  match ent p (Some k) a k' with Some e => Some e | None => ent x q ((k, v) :: b) k' end.
Proof.
  intros H. unfold put. destruct (Z.eqb_spec k' k) as [->|Hne].
  - rewrite (ent_none _ _ a k H). cbn [ent]. now rewrite Z.eqb_refl.
  - rewrite ent_app. cbn [hd_key ent]. destruct (Z.eqb_spec k' k); [contradiction|]. reflexivity.
Qed.

(** Linking two halves: the store for [a ++ b] from one where the halves are known. *)
Definition halves (p1 q1 p2 q2 : option Z) a b (k : Z) : option entry :=
  match ent p1 q1 a k with Some e => Some e | None => ent p2 q2 b k end.

Lemma ent_halves a b k : ent None None (a ++ b) k = halves None (hd_key b None) (last_key None a) None a b k.
Proof. apply ent_app. Qed.

Lemma fix_right s p1 q1 p2 q2 a k0 v0 b x : NoDup (map fst (a ++ (k0, v0) :: b)) ->
  (forall k, s k = halves p1 q1 p2 q2 a ((k0, v0) :: b) k) ->
  exists s', set_lru s k0 x = Some s' /\ forall k, s' k = halves p1 q1 x q2 a ((k0, v0) :: b) k.
Proof.
  intros Hnd Hs. rewrite map_app in Hnd. cbn [map fst] in Hnd.
  apply NoDup_remove_2 in Hnd. rewrite in_app_iff in Hnd.
  assert (Hk : s k0 = Some (Entry v0 p2 (hd_key b q2))).
  { rewrite Hs. unfold halves. rewrite ent_none by tauto. cbn [ent]. now rewrite Z.eqb_refl. }
  unfold set_lru. rewrite Hk. eexists. split; [reflexivity|]. intros k. cbn [buf e_mru].
  unfold put. destruct (Z.eqb_spec k k0) as [->|Hne].
  - unfold halves. rewrite ent_none by tauto. cbn [ent]. now rewrite Z.eqb_refl.
  - rewrite Hs. unfold halves. destruct (ent p1 q1 a k); [reflexivity|]. cbn [ent].
    destruct (Z.eqb_spec k k0); [contradiction|reflexivity].
Qed.

Lemma fix_left s p1 q1 p2 q2 a k0 v0 b x : NoDup (map fst ((a ++ [(k0, v0)]) ++ b)) ->
  (forall k, s k = halves p1 q1 p2 q2 (a ++ [(k0, v0)]) b k) ->
  exists s', set_mru s k0 x = Some s' /\ forall k, s' k = halves p1 x p2 q2 (a ++ [(k0, v0)]) b k.
Proof.
  intros Hnd Hs. rewrite <- app_assoc in Hnd. cbn [app] in Hnd. rewrite map_app in Hnd. cbn [map fst] in Hnd.
  apply NoDup_remove_2 in Hnd. rewrite in_app_iff in Hnd.
  assert (He : forall y, ent p1 y (a ++ [(k0, v0)]) k0 = Some (Entry v0 (last_key p1 a) y)).
  { intros y. rewrite ent_mid by tauto. reflexivity. }
  assert (Hk : s k0 = Some (Entry v0 (last_key p1 a) q1)).
  { rewrite Hs. unfold halves. now rewrite He. }
  unfold set_mru. rewrite Hk. eexists. split; [reflexivity|]. intros k. cbn [buf e_lru].
  unfold put. destruct (Z.eqb_spec k k0) as [->|Hne].
  - unfold halves. now rewrite He.
  - rewrite Hs. unfold halves. rewrite !ent_app. cbn [hd_key ent].
    destruct (Z.eqb_spec k k0); [contradiction|reflexivity].
Qed.

Lemma last_key_snoc p a k v : last_key p (a ++ [(k, v)]) = Some k.
Proof. rewrite last_key_app. reflexivity. Qed.

Lemma NoDup_drop_mid a b (k : Z) (v : V) : NoDup (map fst (a ++ (k, v) :: b)) -> NoDup (map fst (a ++ b)).
Proof. rewrite !map_app. cbn [map fst]. apply NoDup_remove_1. Qed.

Lemma oeq_refl x : oeq x x = true. Proof. destruct x; cbn; [apply Z.eqb_refl|reflexivity]. Qed.

Lemma list_last_case (l : list (Z * V)) : l = [] \/ exists a k v, l = a ++ [(k, v)].
Proof. destruct l as [|x l] using rev_ind; [auto|right]. destruct x as [k v]. eauto. Qed.

Lemma remove_ok c l k : wf c l ->
  exists c', remove space c k = Some (lookup k l, c') /\ wf c' (without k l) /\ capacity c' = capacity c.
Proof.
  intros (Hnd & Hst & Hl & Hm & Hsz & Hlen). unfold remove. rewrite (Hst k).
  pose proof (find_split l k Hnd) as Hf. destruct (lookup k l) as [v|].
  2: { destruct Hf as [Hni E]. rewrite ent_none by exact Hni. rewrite E. exists c. repeat split; auto. }
  destruct Hf as (a & b & El & E & Ha & Hb). rewrite E. subst l. rewrite ent_mid by exact Ha.
  cbn [buf e_lru e_mru].
  assert (Hs0 : forall k', put (store c) k None k' = halves None (Some k) (Some k) None a b k').
  { intros k'. unfold put. destruct (Z.eqb_spec k' k) as [->|Hne].
    - unfold halves. now rewrite !ent_none by assumption.
    - rewrite Hst, ent_app. unfold halves. cbn [hd_key ent].
      destruct (Z.eqb_spec k' k); [contradiction|reflexivity]. }
  assert (Hnd' : NoDup (map fst (a ++ b))) by (eapply NoDup_drop_mid; exact Hnd).
  assert (Hsz' : size c - space v = total space (a ++ b)).
  { rewrite Hsz, !total_app. cbn [total fold_right snd]. unfold total. lia. }
  assert (Hlen' : pred (len c) = length (a ++ b)).
  { rewrite Hlen, !app_length. cbn [length]. lia. }
  (* first link *)
  assert (H1 : exists s1 mru', (match hd_key b None with
           | Some m => match set_lru (put (store c) k None) m (last_key None a) with Some s => Some (s, mru c) | None => None end
           | None => if oeq (mru c) (Some k) then Some (put (store c) k None, last_key None a) else None
           end) = Some (s1, mru') /\ mru' = last_key None (a ++ b) /\
           forall k', s1 k' = halves None (Some k) (last_key None a) None a b k').
  { destruct b as [|[kb vb] b]; cbn [hd_key].
    - rewrite Hm, last_key_snoc, oeq_refl. do 2 eexists. split; [reflexivity|]. rewrite app_nil_r. split; [reflexivity|].
      intros k'. rewrite Hs0. unfold halves. cbn [ent]. reflexivity.
    - destruct (fix_right _ _ _ _ _ a kb vb b (last_key None a) Hnd' Hs0) as (s1 & -> & H).
      do 2 eexists. split; [reflexivity|]. split; [|exact H]. rewrite Hm, !last_key_app. reflexivity. }
  destruct H1 as (s1 & mru' & -> & Hmru & Hs1). cbn beta iota.
  assert (H2 : exists s2 lru', (match last_key None a with
             | Some l => match set_mru s1 l (hd_key b None) with Some s => Some (s, lru c) | None => None end
             | None => if oeq (lru c) (Some k) then Some (s1, hd_key b None) else None
             end) = Some (s2, lru') /\ lru' = hd_key (a ++ b) None /\
           forall k', s2 k' = halves None (hd_key b None) (last_key None a) None a b k').
  { destruct (list_last_case a) as [->|(a' & ka & va & ->)].
    - cbn [last_key]. rewrite Hl. cbn [app hd_key]. rewrite oeq_refl. do 2 eexists. split; [reflexivity|]. split; [reflexivity|].
      intros k'. rewrite Hs1. reflexivity.
    - rewrite last_key_snoc in *. destruct (fix_left _ _ _ _ _ a' ka va b (hd_key b None) Hnd' Hs1) as (s2 & -> & H).
      do 2 eexists. split; [reflexivity|]. split; [|exact H]. rewrite Hl, <- !app_assoc. cbn [app]. rewrite !hd_key_app. reflexivity. }
  destruct H2 as (s2 & lru' & -> & Hlru & Hs2).
  eexists. split; [reflexivity|]. split; [|reflexivity]. repeat split; cbn [store Lru_Model.lru Lru_Model.mru size len]; auto.
  intros k'. rewrite Hs2, ent_halves. reflexivity.
Qed.

Lemma lookup_app_hit a b k (v : V) : ~ In k (map fst a) -> lookup k (a ++ (k, v) :: b) = Some v.
Proof.
  induction a as [|[k0 v0] a IH]; cbn [app lookup map fst In]; intros H.
  - now rewrite Z.eqb_refl.
  - destruct (Z.eqb_spec k0 k); [subst; tauto|]. apply IH. tauto.
Qed.

Lemma expire_ok c k v l : wf c ((k, v) :: l) ->
  exists c', expire space c = Some c' /\ wf c' l /\ capacity c' = capacity c.
Proof.
  intros H. destruct (remove_ok c _ k H) as (c' & E & Hw & Hc).
  unfold expire. destruct H as (Hnd & _ & -> & _). cbn [hd_key]. rewrite E.
  exists c'. split; [reflexivity|]. split; [|exact Hc].
  replace l with (without k ((k, v) :: l)); [exact Hw|].
  cbn [without filter fst]. rewrite Z.eqb_refl. cbn [negb].
  cbn [map fst] in Hnd. inversion Hnd as [|? ? Hni Hnd']; subst.
  pose proof (find_split l k Hnd') as Hf. destruct (lookup k l) as [w|].
  - destruct Hf as (a & b & -> & _). exfalso. apply Hni. rewrite map_app, in_app_iff. cbn. tauto.
  - apply Hf.
Qed.

Lemma make_room_ok n l : forall c, wf c l -> 0 <= n <= capacity c ->
  exists c', make_room space (len c) c n = Some c' /\ wf c' (evict space (capacity c) n l) /\ capacity c' = capacity c.
Proof.
  induction l as [|[k v] l IH]; intros c H Hn;
    pose proof H as (Hnd & _ & _ & _ & Hsz & Hlen); rewrite Hlen; cbn [length make_room evict];
    rewrite Hsz.
  - cbn [total fold_right]. destruct (Z.ltb_spec (capacity c) (0 + n)); [lia|]. eauto.
  - destruct (capacity c <? total space ((k, v) :: l) + n); [|eauto].
    destruct (expire_ok c k v l H) as (c1 & -> & Hw & Hc).
    pose proof Hw as (_ & _ & _ & _ & _ & Hlen1). rewrite <- Hlen1. rewrite <- Hc.
    destruct (IH c1 Hw) as (c2 & H1 & H2 & H3); [lia|]. exists c2. split; [exact H1|]. split; [exact H2|lia].
Qed.

Lemma evict_fits cap n l : n <= cap -> total space (evict space cap n l) + n <= cap.
Proof.
  intros H. induction l as [|[k v] l IH]; cbn [evict].
  - destruct (Z.ltb_spec cap (total space [] + n)); [cbn; lia|]. lia.
  - destruct (Z.ltb_spec cap (total space ((k, v) :: l) + n)); [exact IH|lia].
Qed.

Lemma lookup_evict cap n k l w : NoDup (map fst l) -> lookup k (evict space cap n l) = Some w -> lookup k l = Some w.
Proof.
  induction l as [|[k0 v0] l IH]; cbn [evict map fst]; intros Hnd.
  - now destruct (cap <? _).
  - destruct (cap <? _); [|auto]. inversion Hnd as [|? ? Hni Hnd']; subst. intros H. specialize (IH Hnd' H).
    cbn [lookup]. destruct (Z.eqb_spec k0 k) as [->|]; [|exact IH].
    pose proof (find_split l k Hnd') as Hf. rewrite IH in Hf. destruct Hf as (a & b & -> & _).
    exfalso. apply Hni. rewrite map_app, in_app_iff. cbn. tauto.
Qed.

Lemma insert_ok c l k v : wf c l -> space v <= capacity c -> (forall w, lookup k l = Some w -> w = v) ->
  exists c', insert space veq c k v = Some c' /\
    wf c' (snd (spec_step space (capacity c) l (Insert k v))) /\ capacity c' = capacity c.
Proof.
  intros H Hv Hd. unfold insert. destruct (Z.ltb_spec (capacity c) (space v)); [lia|].
  destruct (make_room_ok (space v) l c H) as (c1 & -> & Hw & Hc); [pose proof (space_nonneg v); lia|].
  cbn [spec_step snd]. pose proof (lookup_evict (capacity c) (space v) k l) as Hle.
  specialize (fun w => Hle w (proj1 H)).
  set (l1 := evict space (capacity c) (space v) l) in *.
  destruct Hw as (Hnd & Hst & Hl & Hm & Hsz & Hlen).
  pose proof (find_split l1 k Hnd) as Hf. rewrite Hst. destruct (lookup k l1) as [w|] eqn:El1.
  - destruct Hf as (a & b & E & _ & Ha & Hb). rewrite E, ent_mid by exact Ha. cbn [buf].
    assert (w = v) as -> by exact (Hd w (Hle w eq_refl)). rewrite (proj2 (veq_spec v v) eq_refl).
    exists c1. split; [reflexivity|]. split; [|exact Hc]. rewrite <- E. repeat split; auto.
  - destruct Hf as [Hni _]. rewrite ent_none by exact Hni.
    assert (Hs0 : forall k', put (store c1) k (Some (Entry v (mru c1) None)) k' =
                             halves None None (last_key None l1) None l1 [(k, v)] k').
    { intros k'. unfold put, halves. destruct (Z.eqb_spec k' k) as [->|Hne].
      - rewrite ent_none by exact Hni. cbn [ent]. rewrite Z.eqb_refl, Hm. reflexivity.
      - rewrite Hst. cbn [ent]. destruct (Z.eqb_spec k' k); [contradiction|]. destruct (ent None None l1 k'); reflexivity. }
    assert (Hnd' : NoDup (map fst (l1 ++ [(k, v)]))).
    { rewrite map_app. cbn [map fst]. apply NoDup_Add with (a := k) (l := map fst l1); [|auto].
      rewrite <- (app_nil_r (map fst l1)) at 1. apply Add_app. }
    assert (H1 : exists s1, (match mru c1 with
             | Some m => match put (store c1) k (Some (Entry v (mru c1) None)) m with
                         | Some e => match e_mru e with
                                     | None => set_mru (put (store c1) k (Some (Entry v (mru c1) None))) m (Some k)
                                     | Some _ => None
                                     end
                         | None => Some (put (store c1) k (Some (Entry v (mru c1) None)))
                         end
             | None => Some (put (store c1) k (Some (Entry v (mru c1) None)))
             end) = Some s1 /\ forall k', s1 k' = halves None (Some k) (last_key None l1) None l1 [(k, v)] k').
    { destruct (list_last_case l1) as [E|(a & ka & va & E)].
      - rewrite E in *. rewrite Hm. cbn [last_key]. eexists. split; [reflexivity|]. rewrite Hm in Hs0. exact Hs0.
      - rewrite E in *. rewrite last_key_snoc in *. rewrite Hm in Hs0 |- *. 
        destruct (fix_left _ _ _ _ _ a ka va [(k, v)] (Some k) Hnd' Hs0) as (s1 & E1 & H1).
        exists s1. split; [|exact H1]. rewrite E1.
        rewrite Hs0. unfold halves. rewrite ent_mid; [reflexivity|].
        rewrite map_app in Hnd. cbn [map fst] in Hnd. apply NoDup_remove_2 in Hnd. rewrite in_app_iff in Hnd. tauto. }
    destruct H1 as (s1 & -> & Hs1). eexists. split; [reflexivity|]. split; [|exact Hc].
    repeat split; cbn [store Lru_Model.lru Lru_Model.mru size len]; auto.
    + intros k'. rewrite Hs1, ent_halves. reflexivity.
    + rewrite Hl. destruct l1 as [|[k1 v1] l1']; reflexivity.
    + rewrite last_key_snoc. reflexivity.
    + rewrite Hsz, total_app. cbn [total fold_right snd]. unfold total. lia.
    + rewrite Hlen, app_length. cbn. lia.
Qed.

Lemma without_id l k : ~ In k (map fst l) -> without k l = l.
Proof.
  induction l as [|[k0 v0] l IH]; cbn [without filter map fst In]; intros H; [reflexivity|].
  destruct (Z.eqb_spec k0 k); [subst; tauto|]. cbn [negb]. f_equal. apply IH. tauto.
Qed.

Lemma get_ok c l k : wf c l ->
  exists c', get c k = Some (fst (spec_step space (capacity c) l (Get k)), c') /\
    wf c' (snd (spec_step space (capacity c) l (Get k))) /\ capacity c' = capacity c.
Proof.
  intros H. pose proof H as (Hnd & Hst & Hl & Hm & Hsz & Hlen). unfold get. rewrite Hst. cbn [spec_step].
  pose proof (find_split l k Hnd) as Hf. destruct (lookup k l) as [v|].
  2: { destruct Hf as [Hni _]. rewrite ent_none by exact Hni. cbn [fst snd].
       destruct (oeq (mru c) (Some k)) eqn:Eo.
       - exfalso. destruct (list_last_case l) as [->|(a & ka & va & ->)]; rewrite Hm in Eo; [discriminate|].
         rewrite last_key_snoc in Eo. cbn in Eo. apply Z.eqb_eq in Eo. subst. apply Hni.
         rewrite map_app, in_app_iff. cbn. tauto.
       - exists c. auto. }
  destruct Hf as (a & b & El & E & Ha & Hb). rewrite E. cbn [fst snd]. subst l.
  rewrite ent_mid by exact Ha. cbn [buf e_lru e_mru].
  destruct b as [|[kb vb] b].
  { (* already the most recent *)
    rewrite Hm, last_key_snoc, oeq_refl. exists c. rewrite app_nil_r. auto. }
  assert (Eo : oeq (mru c) (Some k) = false).
  { rewrite Hm, last_key_app. cbn [last_key]. destruct (list_last_case ((kb, vb) :: b)) as [Eb|(b' & kl & vl & Eb)]; [discriminate|].
    change (last_key (Some kb) b) with (last_key None ((kb, vb) :: b)). rewrite Eb in Hb |- *. rewrite last_key_snoc. cbn.
    apply Z.eqb_neq. intros ->. apply Hb. rewrite map_app, in_app_iff. cbn. tauto. }
  rewrite Eo. cbn [hd_key].
  set (b0 := (kb, vb) :: b) in *.
  assert (Hlastb : forall p q, last_key p b0 = last_key q b0) by reflexivity.
  assert (HndM : NoDup (map fst (a ++ b0))) by (eapply NoDup_drop_mid; exact Hnd).
  assert (HndF : NoDup (map fst ((a ++ b0) ++ [(k, v)]))).
  { rewrite map_app. cbn [map fst]. apply NoDup_Add with (a := k) (l := map fst (a ++ b0)).
    - rewrite <- (app_nil_r (map fst (a ++ b0))) at 1. apply Add_app.
    - split; [exact HndM|]. rewrite map_app, in_app_iff. tauto. }
  assert (Hmb : mru c = last_key None b0) by (rewrite Hm, last_key_app; reflexivity).
  (* the store without its k entry, in halves *)
  set (s0 := put (store c) k (Some (Entry v (mru c) None))).
  assert (Hs0 : forall k', s0 k' = match halves None (Some k) (Some k) None a b0 k' with
                                   | Some e => Some e | None => ent (mru c) None [(k, v)] k' end).
  { intros k'. unfold s0, put. destruct (Z.eqb_spec k' k) as [->|Hne].
    - unfold halves. rewrite !ent_none by assumption. cbn [ent]. now rewrite Z.eqb_refl.
    - rewrite Hst, ent_app. unfold halves. cbn [hd_key]. cbn [ent]. destruct (Z.eqb_spec k' k); [contradiction|].
      destruct (ent None (Some k) a k'); [reflexivity|]. fold b0. 
      change (if k' =? kb then _ else _) with (ent (Some k) None b0 k'). destruct (ent (Some k) None b0 k'); reflexivity. }
  (* unlink: right neighbour *)
  assert (H1 : exists s1, set_lru s0 kb (last_key None a) = Some s1 /\
     forall k', s1 k' = match halves None (Some k) (last_key None a) None a b0 k' with
                        | Some e => Some e | None => ent (mru c) None [(k, v)] k' end).
  { assert (Hk1 : ~ In kb (map fst a) /\ kb <> k).
    { unfold b0 in HndM. rewrite map_app in HndM. cbn [map fst] in HndM. apply NoDup_remove_2 in HndM. rewrite in_app_iff in HndM.
      split; [tauto|]. intros ->. apply Hb. left. reflexivity. }
    unfold set_lru. rewrite Hs0. unfold halves at 1. rewrite ent_none by tauto. unfold b0 at 1. cbn [ent]. rewrite Z.eqb_refl.
    eexists. split; [reflexivity|]. intros k'. cbn [buf e_mru]. unfold put. destruct (Z.eqb_spec k' kb) as [->|Hne].
    - unfold halves. rewrite ent_none by tauto. unfold b0. cbn [ent]. rewrite Z.eqb_refl. reflexivity.
    - rewrite Hs0. unfold halves. destruct (ent None (Some k) a k'); [reflexivity|]. unfold b0. cbn [ent].
      destruct (Z.eqb_spec k' kb); [contradiction|reflexivity]. }
  destruct H1 as (s1 & -> & Hs1). cbn beta iota.
  (* unlink: left neighbour *)
  assert (H2 : exists s2 lru', (match last_key None a with
             | Some l => match set_mru s1 l (Some kb) with Some s => Some (s, lru c) | None => None end
             | None => if oeq (lru c) (Some k) then Some (s1, Some kb) else None
             end) = Some (s2, lru') /\ lru' = hd_key ((a ++ b0) ++ [(k, v)]) None /\
     forall k', s2 k' = match ent None None (a ++ b0) k' with
                        | Some e => Some e | None => ent (mru c) None [(k, v)] k' end).
  { destruct (list_last_case a) as [->|(a' & ka & va & ->)].
    - cbn [last_key]. rewrite Hl. cbn [app hd_key]. rewrite oeq_refl. do 2 eexists. split; [reflexivity|]. split; [reflexivity|].
      intros k'. rewrite Hs1. reflexivity.
    - rewrite last_key_snoc in *.
      assert (Hka : ~ In ka (map fst a') /\ ka <> k).
      { rewrite <- app_assoc in HndM. cbn [app] in HndM. rewrite map_app in HndM. cbn [map fst] in HndM. apply NoDup_remove_2 in HndM.
        rewrite in_app_iff in HndM. split; [tauto|]. intros ->. apply Ha. rewrite map_app, in_app_iff. cbn. tauto. }
      unfold set_mru. rewrite Hs1. unfold halves at 1. rewrite (ent_mid None (Some k) a' [] ka va) by tauto.
      do 2 eexists. split; [reflexivity|]. split; [rewrite Hl, <- !app_assoc; cbn [app]; rewrite !hd_key_app; reflexivity|].
      intros k'. cbn [buf e_lru]. unfold put. destruct (Z.eqb_spec k' ka) as [->|Hne].
      + rewrite <- app_assoc. cbn [app]. rewrite ent_mid by tauto. reflexivity.
      + rewrite Hs1. unfold halves. rewrite <- app_assoc, !ent_app. cbn [app ent hd_key].
        destruct (Z.eqb_spec k' ka); [contradiction|]. destruct (ent None (Some ka) a' k'); reflexivity. }
  destruct H2 as (s2 & lru' & -> & Hlru & Hs2). cbn beta iota.
  (* link at the end *)
  assert (Hs2' : forall k', s2 k' = halves None None (last_key None (a ++ b0)) None (a ++ b0) [(k, v)] k').
  { intros k'. rewrite Hs2. unfold halves. rewrite last_key_app, (Hlastb (last_key None a) None), <- Hmb. reflexivity. }
  assert (H3 : exists s3, (match mru c with Some m => set_mru s2 m (Some k) | None => Some s2 end) = Some s3 /\
      forall k', s3 k' = ent None None ((a ++ b0) ++ [(k, v)]) k').
  { destruct (list_last_case (a ++ b0)) as [Eb|(l' & kl & vl & Eb)]; [destruct a; discriminate|].
    assert (Hmk : mru c = Some kl).
    { rewrite Hmb, <- (Hlastb (last_key None a) None), <- last_key_app, Eb. apply last_key_snoc. }
    rewrite Hmk. rewrite Eb in Hs2', HndF |- *.
    destruct (fix_left _ _ _ _ _ l' kl vl [(k, v)] (Some k) HndF Hs2') as (s3 & -> & H3).
    exists s3. split; [reflexivity|]. intros k'. rewrite H3, ent_halves. reflexivity. }
  destruct H3 as (s3 & -> & Hs3).
  eexists. split; [reflexivity|]. split; [|reflexivity].
  repeat split; cbn [store Lru_Model.lru Lru_Model.mru size len]; auto.
  - rewrite last_key_snoc. reflexivity.
  - rewrite Hsz, !total_app. cbn [total fold_right snd]. unfold total. lia.
  - rewrite Hlen, !app_length. cbn [length]. lia.
Qed.

Lemma step_ok c l o : wf c l -> legal space (capacity c) l o ->
  exists c', model_step space veq c o = Some (fst (spec_step space (capacity c) l o), c') /\
             wf c' (snd (spec_step space (capacity c) l o)) /\ capacity c' = capacity c.
Proof.
  intros H Hl. destruct o as [k|k|k v|k|]; cbn [model_step].
  - now apply get_ok.
  - exists c. cbn [spec_step fst snd]. split; [|auto]. do 2 f_equal. unfold get_ref.
    destruct H as (Hnd & Hst & _). rewrite Hst. pose proof (find_split l k Hnd) as Hf. destruct (lookup k l).
    + destruct Hf as (a & b & -> & _ & Ha & _). now rewrite ent_mid.
    + now rewrite ent_none.
  - destruct Hl as [H1 H2]. destruct (insert_ok c l k v H H1 H2) as (c' & -> & Hw & Hc). eauto.
  - cbn [spec_step fst snd]. now apply remove_ok.
  - eexists. split; [reflexivity|]. split; [|reflexivity]. repeat split; auto. constructor.
Qed.

Lemma total_without l k : total space (without k l) <= total space l.
Proof.
  induction l as [|[k0 v0] l IH]; cbn [without filter fst]; [lia|]. unfold total, without in *.
  pose proof (space_nonneg v0). destruct (k0 =? k); cbn [negb fold_right snd]; lia.
Qed.

Lemma spec_bound cap l o : 0 <= cap -> total space l <= cap -> NoDup (map fst l) -> legal space cap l o ->
  total space (snd (spec_step space cap l o)) <= cap.
Proof.
  intros Hc Ht Hnd Hl. destruct o as [k|k|k v|k|]; cbn [spec_step].
  - pose proof (find_split l k Hnd) as Hf. destruct (lookup k l) as [v|]; cbn [snd]; [|exact Ht].
    destruct Hf as (a & b & -> & -> & _). rewrite !total_app in *. cbn [total fold_right snd] in *. unfold total in *. lia.
  - exact Ht.
  - destruct Hl as [Hl _]. pose proof (evict_fits cap (space v) l Hl) as He. cbn [snd].
    destruct (lookup k _); [pose proof (space_nonneg v); lia|]. rewrite total_app. cbn [total fold_right snd]. unfold total in *. lia.
  - cbn [snd]. pose proof (total_without l k). lia.
  - cbn. exact Hc.
Qed.

Lemma run_ok ops : forall c l, wf c l -> total space l <= capacity c -> 0 <= capacity c -> legal_run space (capacity c) l ops ->
  exists c', model_run space veq c ops = Some (fst (spec_run space (capacity c) l ops), c') /\
    wf c' (snd (spec_run space (capacity c) l ops)) /\
    total space (snd (spec_run space (capacity c) l ops)) <= capacity c /\ capacity c' = capacity c.
Proof.
  induction ops as [|o ops IH]; intros c l Hw Ht Hc Hl; cbn [model_run spec_run].
  - exists c. auto.
  - destruct Hl as [Hl1 Hl2]. destruct (step_ok c l o Hw Hl1) as (c1 & -> & Hw1 & Hc1).
    pose proof (spec_bound (capacity c) l o Hc Ht (proj1 Hw) Hl1) as Hb.
    destruct (spec_step space (capacity c) l o) as [r l1]. cbn [fst snd] in *.
    rewrite <- Hc1 in Hl2, Hb, Hc. destruct (IH c1 l1 Hw1 Hb Hc Hl2) as (c2 & -> & H2 & H3 & H4).
    rewrite Hc1 in *. destruct (spec_run space (capacity c) l1 ops) as [rs l2]. cbn [fst snd] in *.
    exists c2. auto.
Qed.
End Proofs.

(** ** C19.  For every sequence of operations that never inserts an item larger than the
    cache or two different values under one key: the cache does not panic, answers as the
    LRU list does (so it evicts exactly the oldest entries and only as many as needed),
    its contents are that list's, and its recorded size is the entries' total size, which
    never exceeds the capacity. *)
Theorem C19_lru : forall {V : Type} (space : V -> Z) (veq : V -> V -> bool) (cap : Z) (ops : list op),
  (forall v, 0 <= space v) -> (forall a b, veq a b = true <-> a = b) -> 0 <= cap ->
  legal_run space cap [] ops ->
  let '(answers, l) := spec_run space cap [] ops in
  exists c, model_run space veq (with_capacity cap) ops = Some (answers, c) /\
    (forall k, get_ref c k = lookup k l) /\ NoDup (map fst l) /\
    size c = total space l /\ size c <= cap /\
    lru c = hd_error (map fst l) /\ mru c = hd_error (rev (map fst l)).
Proof.
  intros V space veq cap ops Hs Hv Hc Hl.
  destruct (run_ok space veq Hs Hv ops (with_capacity cap) []) as (c & E & Hw & Ht & Hcap); cbn [capacity with_capacity] in *; auto.
  { repeat split; auto. constructor. }
  destruct (spec_run space cap [] ops) as [answers l]. cbn [fst snd] in *.
  exists c. split; [exact E|]. pose proof Hw as (Hnd & Hst & Hlr & Hmr & Hsz & Hlen).
  split; [|split; [exact Hnd|split; [exact Hsz|split; [lia|split]]]].
  - intros k. destruct (step_ok space veq Hs Hv c l (Peek k) Hw I) as (c' & E' & _). cbn in E'. congruence.
  - rewrite Hlr. destruct l as [|[k v] l]; reflexivity.
  - rewrite Hmr. destruct (list_last_case l) as [->|(a & k & v & ->)]; [reflexivity|].
    rewrite last_key_snoc, map_app, rev_app_distr. reflexivity.
Qed.

(** The two misuses do panic. *)
Theorem C19_insert_too_big_panics : forall {V : Type} (space : V -> Z) veq (c : @cache V) k v,
  capacity c < space v -> insert space veq c k v = None.
Proof. intros. unfold insert. destruct (Z.ltb_spec (capacity c) (space v)); [reflexivity|lia]. Qed.

(** Capacity 10; looking up 1 saves it from eviction, so inserting 4 evicts 2 and 3. *)
Example C19_ex :
  let ops := [Insert 1 3; Insert 2 3; Insert 3 3; Get 1; Insert 4 7; Get 1; Get 2; Get 3; Peek 4; Remove 1; Get 4] in
  legal_run (fun x : Z => x) 10 [] ops /\
  spec_run (fun x : Z => x) 10 [] ops =
    ([None; None; None; Some 3; None; Some 3; None; None; Some 7; Some 3; Some 7], [(4, 7)]).
Proof. split; [|reflexivity]. cbn. repeat split; intros; try lia; discriminate. Qed.

Print Assumptions C19_lru.
Print Assumptions C19_insert_too_big_panics.
