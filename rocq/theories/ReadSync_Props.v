(** C91: reading a file while the file system is synced. *)
From Verif Require Import Common ZMap File_Model File_Proofs File_Props ReadSync_Model.
From Coq Require Import Permutation.

(** * Specification: the vocabulary of [File_Props]; the reads that are asked for, and their answers *)
Definition asked (rds : list reader) (reqs : list (Z * Z)) : Prop :=
  rds = map (fun q => Reader (fst q) (snd q) RStart) reqs.
Definition answers (rds : list reader) (i : nat) (o : option (list Z)) : Prop :=
  exists off n res, nth_error rds i = Some (Reader off n (RDone res)) /\ o = option_map (@concat Z) res.

(** * Proof *)
Definition sok (d : ds) : Prop :=
  zm_ok (d_ext d) /\ zm_ok (d_blobs d) /\ Forall (fun p => stored (d_blobs d) (snd p)) (d_ext d) /\
  Forall (fun k => k < d_next d) (map fst (d_blobs d)).
Lemma dsok_sok d : dsok d -> sok d.
Proof.
  intros (O1 & O2 & P & F1 & _ & N0 & A). split; [exact O1|]. split; [exact O2|]. split; [exact F1|].
  apply Forall_forall. intros k I. assert (I' : In k (zrange 0 (d_next d))) by (rewrite <- A; apply in_or_app; auto). apply in_zrange in I'. lia.
Qed.
Definition resolve (d : ds) (q : list (Z * extent)) : list (Z * list Z) := map (fun p => (fst p, res (d_blobs d) (snd p))) q.

Lemma next_free d : sok d -> zm_get (d_next d) (d_blobs d) = None.
Proof.
  intros (_ & _ & _ & L). destruct (zm_get (d_next d) (d_blobs d)) as [x|] eqn:G; [|reflexivity]. apply zm_get_in in G. rewrite Forall_forall in L.
  specialize (L (d_next d)). rewrite in_map_iff in L. specialize (L (ex_intro _ (d_next d, x) (conj eq_refl G))). lia.
Qed.
Lemma zm_set_same {A} (m : list (Z * A)) k v : zm_ok m -> zm_get k m = Some v -> zm_set k v m = m.
Proof.
  intros O G. apply zm_ext; [now apply zm_ok_set|exact O|]. intros j. rewrite zm_get_set by exact O. destruct (Z.eqb_spec j k); congruence.
Qed.
Lemma flush_at_ok d rds k d' : sok d -> flush_at d rds k = Some d' ->
  sok d' /\ R d' = R d /\ d_freed d' = d_freed d /\
  (forall e, stored (d_blobs d) e -> stored (d_blobs d') e /\ res (d_blobs d') e = res (d_blobs d) e).
Proof.
  intros S. pose proof S as (O1 & O2 & F & L). unfold flush_at.
  assert (Triv : Some d = Some d' -> sok d' /\ R d' = R d /\ d_freed d' = d_freed d /\ (forall e, stored (d_blobs d) e -> stored (d_blobs d') e /\ res (d_blobs d') e = res (d_blobs d) e))
    by (intros E; injection E as <-; auto).
  destruct (zm_get k (d_ext d)) as [[b|r l]|] eqn:G; [|exact Triv|exact Triv]. destruct (BLOB_THRESHOLD <? zlen b); [|exact Triv].
  destruct (existsb (holds k) rds); [discriminate|]. intros E. injection E as <-. clear Triv. pose proof (next_free d S) as N.
  assert (K : forall e, stored (d_blobs d) e -> stored (zm_set (d_next d) b (d_blobs d)) e /\ res (zm_set (d_next d) b (d_blobs d)) e = res (d_blobs d) e)
    by (intros e; apply stored_set; assumption).
  cbn [d_ext d_blobs d_freed]. split; [|split; [|split; [reflexivity|exact K]]].
  - split; [now apply zm_ok_set|]. split; [now apply zm_ok_set|]. split.
    + apply Forall_forall. intros p I. cbn [d_ext d_blobs] in *. apply zm_set_fst in I. destruct I as [->|I].
      * exists b. rewrite zm_get_set, Z.eqb_refl by exact O2. auto.
      * rewrite Forall_forall in F. apply K. apply F. exact I.
    + cbn [d_blobs d_next]. rewrite keys_set by assumption. constructor; [lia|]. eapply Forall_impl; [|exact L]. cbn. lia.
  - unfold R. cbn [d_ext d_blobs]. rewrite (map_zm_set (res (zm_set (d_next d) b (d_blobs d)))). cbn [res]. rewrite zm_get_set, Z.eqb_refl by exact O2.
    assert (E : map (fun p => (fst p, res (zm_set (d_next d) b (d_blobs d)) (snd p))) (d_ext d) = R d).
    { apply map_ext_in. intros p I. f_equal. apply K. rewrite Forall_forall in F. now apply F. }
    rewrite E. apply zm_set_same; [now apply (zm_ok_map (res (d_blobs d)))|]. unfold R. rewrite (map_zm_get (res (d_blobs d))), G. reflexivity.
Qed.

Lemma read_fold_app offset n : forall l1 l2 sg p rec,
  read_fold offset n sg p rec (l1 ++ l2) =
  match read_fold offset n sg p rec l1 with Some (sg', p') => read_fold offset n sg' p' (rec + zlen l1) l2 | None => None end.
Proof.
  induction l1 as [|[ofs db] l1 IH]; intros l2 sg p rec.
  - cbn. unfold zlen. cbn. now rewrite Z.add_0_r.
  - cbn [app read_fold]. replace (zlen ((ofs, db) :: l1)) with (1 + zlen l1) by (unfold zlen; cbn [length]; lia).
    destruct (ofs <? p).
    + destruct (rec =? 0); [|reflexivity]. destruct (p - ofs <? Z.min (zlen db) (p + n - ofs)); rewrite IH;
        destruct (read_fold _ _ _ _ (rec + 1) l1) as [[sg' p']|]; try reflexivity; f_equal; lia.
    + destruct (fill_holes (Z.to_nat (ofs - p)) sg p ofs) as [sg1 p1]. rewrite IH.
      destruct (read_fold _ _ _ _ (rec + 1) l1) as [[sg' p']|]; try reflexivity; f_equal; lia.
Qed.
Lemma fetch_stored d es : Forall (fun p => stored (d_blobs d) (snd p)) es -> fetch d es = Some (resolve d es).
Proof.
  intros F. induction F as [|[k e] l S F IH]; [reflexivity|]. cbn [fetch resolve map fst snd]. rewrite IH.
  destruct e as [b|r n]; [reflexivity|]. cbn in S. destruct S as (b & G & _). cbn. now rewrite G.
Qed.
Lemma range_stored d lo hi : sok d -> Forall (fun p => stored (d_blobs d) (snd p)) (ds_range d lo hi).
Proof. intros (_ & _ & F & _). apply Forall_forall. intros p I. apply filter_In in I. rewrite Forall_forall in F. apply F, I. Qed.
Lemma within_split m lo mid hi : zm_ok m -> mid <= hi ->
  within lo (Some hi) m = within lo (Some mid) m ++ within (Z.max lo mid) (Some hi) m.
Proof.
  intros O H. induction m as [|[k b] m IH]; [reflexivity|]. apply zm_ok_cons in O. destruct O as [O F]. specialize (IH O).
  set (P1 := fun p : Z * list Z => in_erange lo (Some hi) (fst p)) in *. set (P2 := fun p : Z * list Z => in_erange lo (Some mid) (fst p)) in *.
  set (P3 := fun p : Z * list Z => in_erange (Z.max lo mid) (Some hi) (fst p)) in *.
  assert (E : mid <= k -> filter P2 m = []).
  { clear -F. intros H2. induction m as [|[j c] m IH]; [reflexivity|]. inversion F as [|? ? X Y]; subst. cbn [filter]. unfold P2 at 1, in_erange. cbn [fst] in *.
    destruct (Z.ltb_spec j mid); [lia|]. rewrite andb_false_r. now apply IH. }
  change (filter P1 ((k, b) :: m) = filter P2 ((k, b) :: m) ++ filter P3 ((k, b) :: m)). cbn [filter]. change (filter P1 m = filter P2 m ++ filter P3 m) in IH. rewrite IH.
  replace (P1 (k, b)) with ((lo <=? k) && (k <? hi)) by reflexivity. replace (P2 (k, b)) with ((lo <=? k) && (k <? mid)) by reflexivity.
  replace (P3 (k, b)) with ((Z.max lo mid <=? k) && (k <? hi)) by reflexivity.
  destruct (Z.leb_spec lo k), (Z.ltb_spec k hi), (Z.ltb_spec k mid), (Z.leb_spec (Z.max lo mid) k); cbn [andb app]; try reflexivity; try lia.
  rewrite E by lia. reflexivity.
Qed.

Section Proof.
Context (rs fsize : Z) (m : list (Z * list Z)) (Om : zm_ok m).
(** [m] is the contents by record: it does not change *)
Definition want (r : reader) : list (Z * list Z) :=
  let size64 := Z.min (r_size r) (Z.max 0 (fsize - r_off r)) in within (r_off r - r_off r mod rs) (Some (r_off r + size64)) m.
Definition alone (r : reader) : option (list (list Z)) :=
  let size64 := Z.min (r_size r) (Z.max 0 (fsize - r_off r)) in
  match read_fold (r_off r) size64 [] (r_off r) 0 (want r) with
  | Some (sg, p) => Some (fst (fill_holes (Z.to_nat (size64 - (p - r_off r))) sg p (r_off r + size64)))
  | None => None
  end.
Definition left_of (d : ds) (end_ : Z) (cursor : option Z) (queue : list (Z * extent)) (wait : option (Z * Z)) : list (Z * list Z) :=
  match wait with Some (k, rid) => [(k, res (d_blobs d) (Blob rid 0))] | None => [] end ++
  resolve d queue ++ match cursor with Some c => within c (Some end_) m | None => [] end.
Definition rok (d : ds) (r : reader) : Prop :=
  match r_ph r with
  | RStart => True
  | RGo size64 cursor queue wait sg p rec =>
      size64 = Z.min (r_size r) (Z.max 0 (fsize - r_off r)) /\
      Forall (fun q => stored (d_blobs d) (snd q)) queue /\
      match wait with Some (k, rid) => exists b, zm_get rid (d_blobs d) = Some b | None => True end /\
      exists done, want r = done ++ left_of d (r_off r + size64) cursor queue wait /\ rec = zlen done /\
        read_fold (r_off r) size64 [] (r_off r) 0 done = Some (sg, p)
  | RDone res => res = alone r
  end.

Lemma rok_step d r b : sok d -> R d = m -> alone r <> None -> rok d r ->
  exists r', read_step rs fsize d r b = Some r' /\ rok d r' /\ r_off r' = r_off r /\ r_size r' = r_size r.
Proof.
  intros S HR NP H. destruct r as [off n ph]. unfold read_step. cbn [r_off r_size r_ph] in *.
  destruct ph as [|size64 cursor queue wait sg p rec|o].
  - eexists. split; [reflexivity|]. split; [|split; reflexivity]. unfold rok. cbn [r_ph r_off r_size].
    split; [reflexivity|]. split; [constructor|]. split; [exact I|]. exists []. split; [reflexivity|]. split; reflexivity.
  - unfold rok in H. cbn [r_ph r_off r_size] in H. destruct H as (Hs & Hq & Hw & done & HL & Hrec & Hf).
    assert (Step : forall k buf rest, want (Reader off n (RGo size64 cursor queue wait sg p rec)) = done ++ (k, buf) :: rest ->
      exists sg' p', read_fold off size64 sg p rec [(k, buf)] = Some (sg', p') /\
        read_fold off size64 [] off 0 (done ++ [(k, buf)]) = Some (sg', p')).
    { intros k buf rest E. assert (X : read_fold off size64 [] off 0 (done ++ [(k, buf)]) <> None).
      { intros X. apply NP. unfold alone. cbn [r_off r_size]. rewrite <- Hs, E.
        change ((k, buf) :: rest) with ([(k, buf)] ++ rest). rewrite app_assoc, read_fold_app, X. reflexivity. }
      rewrite read_fold_app, Hf in X |- *. rewrite Z.add_0_l, <- Hrec in X |- *.
      destruct (read_fold off size64 sg p rec [(k, buf)]) as [[sg' p']|]; [|congruence]. exists sg', p'. auto. }
    destruct wait as [[k rid]|].
    + destruct Hw as (buf & G). rewrite G. unfold left_of in HL. cbn [res app] in HL. rewrite G in HL.
      destruct (Step _ _ _ HL) as (sg' & p' & -> & E2). eexists. split; [reflexivity|]. split; [|split; reflexivity].
      unfold rok. cbn [r_ph r_off r_size]. split; [exact Hs|]. split; [exact Hq|]. split; [exact I|]. exists (done ++ [(k, buf)]).
      split; [rewrite <- app_assoc; exact HL|]. split; [unfold zlen in *; rewrite app_length; cbn [length]; lia|exact E2].
    + destruct queue as [|[k [buf|rid l]] queue].
      * destruct cursor as [c|].
        -- destruct (Z.ltb_spec b (off + size64)) as [Hb|Hb]; (eexists; split; [reflexivity|]; split; [|split; reflexivity]);
             unfold rok; cbn [r_ph r_off r_size]; (split; [exact Hs|]; split; [apply range_stored; exact S|]; split; [exact I|]);
             exists done; (split; [|split; [exact Hrec|exact Hf]]); (refine (eq_trans HL _)); f_equal; unfold left_of; cbn [app]; unfold resolve; rewrite ds_range_R, HR.
           ++ cbn [map app]. apply within_split; [exact Om|lia].
           ++ cbn [map app]. now rewrite app_nil_r.
        -- eexists. split; [reflexivity|]. split; [|split; reflexivity]. unfold rok. cbn [r_ph]. unfold alone. cbn [r_off r_size].
           rewrite <- Hs. unfold left_of in HL. cbn in HL. rewrite app_nil_r in HL.
           change (want (Reader off n (RDone (Some (fst (fill_holes (Z.to_nat (size64 - (p - off))) sg p (off + size64)))))))
             with (want (Reader off n (RGo size64 None [] None sg p rec))). rewrite HL, Hf. reflexivity.
      * unfold left_of in HL. cbn [resolve map app fst snd res] in HL. destruct (Step _ _ _ HL) as (sg' & p' & -> & E2).
        eexists. split; [reflexivity|]. split; [|split; reflexivity]. inversion Hq; subst.
        unfold rok. cbn [r_ph r_off r_size]. split; [reflexivity|]. split; [assumption|]. split; [exact I|]. exists (done ++ [(k, buf)]).
        split; [rewrite <- app_assoc; exact HL|]. split; [unfold zlen in *; rewrite app_length; cbn [length]; lia|exact E2].
      * eexists. split; [reflexivity|]. split; [|split; reflexivity]. inversion Hq as [|? ? Hs0 Hq']; subst.
        unfold rok. cbn [r_ph r_off r_size]. split; [reflexivity|]. split; [exact Hq'|]. split; [destruct Hs0 as (b0 & G & _); exists b0; exact G|].
        exists done. split; [exact HL|]. split; [reflexivity|exact Hf].
  - eexists. split; [reflexivity|]. split; [exact H|split; reflexivity].
Qed.
Lemma rok_mono d d' r : (forall e, stored (d_blobs d) e -> stored (d_blobs d') e /\ res (d_blobs d') e = res (d_blobs d) e) ->
  rok d r -> rok d' r.
Proof.
  intros K H. destruct r as [off n ph]. unfold rok in *. cbn [r_ph r_off r_size] in *. destruct ph as [|size64 cursor queue wait sg p rec|o]; [exact H| |exact H].
  destruct H as (Hs & Hq & Hw & done & HL & Hrec & Hf). split; [exact Hs|].
  split; [eapply Forall_impl; [|exact Hq]; intros q Q; apply K; exact Q|].
  assert (Kw : forall k rid, wait = Some (k, rid) -> exists b, zm_get rid (d_blobs d) = Some b /\ zm_get rid (d_blobs d') = Some b).
  { intros k rid ->. destruct Hw as (b & G). destruct (K (Blob rid (zlen b))) as [(b' & G' & El) E]; [exists b; auto|].
    cbn [res] in E. rewrite G, G' in E. exists b. split; [exact G|congruence]. }
  split. { destruct wait as [[k rid]|]; [|exact I]. destruct (Kw k rid eq_refl) as (b & _ & G). exists b. exact G. }
  exists done. split; [|split; [exact Hrec|exact Hf]].
  change (want (Reader off n (RGo size64 cursor queue wait sg p rec))) with (want (Reader off n RStart)) in *. rewrite HL. f_equal. unfold left_of. f_equal.
  - destruct wait as [[k rid]|]; [|reflexivity]. destruct (Kw k rid eq_refl) as (b & G & G'). cbn [res]. now rewrite G, G'.
  - f_equal. unfold resolve. apply map_ext_in. intros q Iq. f_equal. symmetry. apply K. rewrite Forall_forall in Hq. now apply Hq.
Qed.

Definition Inv (st : ds * list reader) (reqs : list (Z * Z)) : Prop :=
  sok (fst st) /\ R (fst st) = m /\ map (fun r => (r_off r, r_size r)) (snd st) = reqs /\ Forall (rok (fst st)) (snd st).
Lemma alone_req r r' : r_off r = r_off r' -> r_size r = r_size r' -> alone r = alone r'.
Proof. unfold alone, want. now intros -> ->. Qed.
Context (reqs : list (Z * Z)) (NP : forall r, In (r_off r, r_size r) reqs -> alone r <> None).

Lemma map_list_upd {A B} (f : A -> B) (l : list A) i x y : nth_error l i = Some y -> f x = f y -> map f (list_upd l i x) = map f l.
Proof. revert i. induction l as [|h t IH]; intros [|i] E F; cbn in *; try discriminate; [injection E as ->; now rewrite F|f_equal; eauto]. Qed.
Lemma Forall_list_upd {A} (P : A -> Prop) l i x : Forall P l -> P x -> Forall P (list_upd l i x).
Proof. revert i. induction l as [|h t IH]; intros [|i] F X; cbn; auto; inversion F; subst; constructor; auto. Qed.

Lemma go_ok atime st i b : Inv st reqs -> exists st', sys_step atime rs fsize st (Go i b) = Some st' /\ Inv st' reqs.
Proof.
  destruct st as [d rds]. intros (S & HR & Hm & F). cbn [fst snd] in *. cbn [sys_step].
  destruct (nth_error rds i) as [r|] eqn:E; [|exists (d, rds); split; [reflexivity|]; split; [exact S|]; split; [exact HR|]; split; assumption].
  assert (Hin : In r rds) by (eapply nth_error_In; exact E).
  destruct (rok_step d r b S HR) as (r' & -> & H1 & H2 & H3).
  - apply NP. rewrite <- Hm. apply in_map_iff. exists r. auto.
  - rewrite Forall_forall in F. now apply F.
  - eexists. split; [reflexivity|]. split; [exact S|]. split; [exact HR|]. cbn [fst snd]. split.
    + rewrite (map_list_upd _ rds i r' r E); [exact Hm|congruence].
    + now apply Forall_list_upd.
Qed.
Lemma flush_inv atime st k st' : Inv st reqs -> sys_step atime rs fsize st (Flush k) = Some st' -> Inv st' reqs.
Proof.
  destruct st as [d rds]. intros HI E. pose proof HI as (S & HR & Hm & F). cbn [fst snd] in *. cbn [sys_step] in E.
  destruct (atime && existsb busy rds); [injection E as <-; exact HI|].
  destruct (flush_at d rds k) as [d'|] eqn:Ef; [|discriminate]. injection E as <-. destruct (flush_at_ok d rds k d' S Ef) as (S' & HR' & _ & K).
  split; [exact S'|]. split; [cbn [fst]; congruence|]. split; [exact Hm|]. cbn [fst snd]. eapply Forall_impl; [|exact F]. intros r. apply rok_mono. exact K.
Qed.
Lemma sys_inv atime : forall cs st st', Inv st reqs -> sys atime rs fsize st cs = Some st' -> Inv st' reqs.
Proof.
  induction cs as [|c cs IH]; intros st st' HI E; [injection E as <-; exact HI|]. cbn [sys] in E.
  destruct (sys_step atime rs fsize st c) as [st1|] eqn:E1; [|discriminate]. apply (IH st1 st'); [|exact E]. destruct c as [i b|k].
  - destruct (go_ok atime st i b HI) as (st2 & E2 & H2). rewrite E1 in E2. injection E2 as <-. exact H2.
  - now apply (flush_inv atime st k).
Qed.
Lemma sys_total : forall cs st, Inv st reqs -> exists st', sys true rs fsize st cs = Some st'.
Proof.
  induction cs as [|c cs IH]; intros st HI; [now exists st|]. cbn [sys].
  assert (X : exists st1, sys_step true rs fsize st c = Some st1).
  { destruct c as [i b|k]; [destruct (go_ok true st i b HI) as (st1 & -> & _); eauto|]. destruct st as [d rds]. cbn [sys_step andb].
    destruct (existsb busy rds) eqn:Eb; [eauto|]. unfold flush_at. assert (Eh : existsb (holds k) rds = false).
    { destruct (existsb (holds k) rds) eqn:Eh; [|reflexivity]. exfalso. apply existsb_exists in Eh. destruct Eh as (r & I & H).
      enough (existsb busy rds = true) by congruence. apply existsb_exists. exists r. split; [exact I|]. unfold holds in H. unfold busy. now destruct (r_ph r). }
    rewrite Eh. destruct (zm_get k (d_ext d)) as [[b|]|]; [destruct (BLOB_THRESHOLD <? zlen b)|..]; eauto. }
  destruct X as (st1 & E). rewrite E. apply IH. apply (sys_inv true [c] st st1 HI). cbn [sys]. now rewrite E.
Qed.
End Proof.

Lemma req_map rds reqs : asked rds reqs -> map (fun r => (r_off r, r_size r)) rds = reqs /\ Forall (fun r => r_ph r = RStart) rds.
Proof.
  intros ->. split; [rewrite map_map; rewrite <- (map_id reqs) at 2; apply map_ext; now intros [a b]|].
  apply Forall_forall. intros r I. apply in_map_iff in I. destruct I as (q & <- & _). reflexivity.
Qed.
Lemma begin_inv rs f rds reqs : 0 < rs -> reachable rs f -> Forall (fun q => 0 <= fst q /\ 0 <= snd q) reqs -> asked rds reqs ->
  zm_ok (R (f_ds f)) /\ Inv rs (f_size f) (R (f_ds f)) (f_ds f, rds) reqs /\
  (forall r, In (r_off r, r_size r) reqs -> read rs f (r_off r) (r_size r) = alone rs (f_size f) (R (f_ds f)) r /\ alone rs (f_size f) (R (f_ds f)) r <> None).
Proof.
  intros RS HR L A. pose proof (reachable_good rs RS f HR) as G. pose proof G as ((O & Om & _) & _). split; [exact Om|].
  destruct (req_map rds reqs A) as [Hm Hs]. split.
  - split; [now apply dsok_sok|]. split; [reflexivity|]. split; [exact Hm|]. cbn [fst snd]. eapply Forall_impl; [|exact Hs]. intros r Hr. unfold rok. now rewrite Hr.
  - intros r I. rewrite Forall_forall in L. specialize (L _ I). cbn [fst snd] in L. destruct (read_spec rs RS f (r_off r) (r_size r) G (proj1 L) (proj2 L)) as (sg & E & _).
    assert (E2 : read rs f (r_off r) (r_size r) = alone rs (f_size f) (R (f_ds f)) r) by (unfold read, do_read, alone, want; now rewrite fetch_ok).
    split; [exact E2|]. congruence.
Qed.

(** * Theorems *)

(** Whatever the file's history, every read that has ended in an execution without panic has its answer, the bytes an ideal file
    would give; the contents of the file are unchanged. *)
Theorem C91_reads_during_sync_partial atime rs os f xs reqs rds cs d rds' :
  0 < rs -> Forall legal os -> run rs new_file os = Some (f, xs) ->
  Forall (fun q => 0 <= fst q /\ 0 <= snd q) reqs -> asked rds reqs ->
  sys atime rs (f_size f) (f_ds f, rds) cs = Some (d, rds') ->
  length rds' = length reqs /\
  (forall i o, answers rds' i o -> exists off n b, nth_error reqs i = Some (off, n) /\ o = Some b /\
     Bytes b = snd (ideal_step (fst (ideal_run empty os)) (Read off n))) /\
  (forall off n, read rs (File d (f_size f) (f_bytes f)) off n = read rs f off n).
Proof.
  intros RS L E Lq A ES. assert (HR : reachable rs f) by (exists os, xs; auto).
  destruct (begin_inv rs f rds reqs RS HR Lq A) as (Om & HI & Hal).
  assert (HI' : Inv rs (f_size f) (R (f_ds f)) (d, rds') reqs).
  { refine (sys_inv rs (f_size f) (R (f_ds f)) Om reqs _ atime cs _ _ HI ES). intros r I. now apply Hal. }
  destruct HI' as (S & HR' & Hm & F). cbn [fst snd] in *. split; [rewrite <- Hm; symmetry; apply map_length|]. split.
  - intros i o (off & n & res & En & ->). assert (Iq : nth_error reqs i = Some (off, n)) by (rewrite <- Hm; now rewrite (map_nth_error _ _ _ En)).
    rewrite Forall_forall in F. specialize (F _ (nth_error_In _ _ En)). unfold rok in F. cbn [r_ph] in F.
    destruct (Hal (Reader off n (RDone res))) as [Er Ea]; [cbn; eapply nth_error_In; exact Iq|]. cbn [r_off r_size] in Er.
    rewrite <- F in Er, Ea. destruct res as [sg|]; [|congruence]. exists off, n, (concat sg). split; [exact Iq|]. split; [reflexivity|].
    destruct (run_ok rs RS os _ _ (new_ok rs) L) as (f' & E' & Ag). rewrite E in E'. injection E' as <- _.
    assert (Lr : legal (Read off n)) by (rewrite Forall_forall in Lq; exact (Lq _ (nth_error_In _ _ Iq))).
    destruct (step_ok rs RS f _ (Read off n) Ag Lr) as (f2 & E2 & _). cbn [step] in E2. rewrite Er in E2. injection E2 as _ E2. cbn. now rewrite E2.
  - intros off n. unfold read, do_read. cbn [f_ds f_size]. rewrite !fetch_stored by (apply range_stored; [exact S || now apply dsok_sok, (reachable_good rs RS f HR)]).
    unfold resolve. rewrite !ds_range_R, HR'. reflexivity.
Qed.

(** Reads never panic; the sync panics only on a long extent of which a read that has not ended holds a copy. *)
Theorem C91_only_the_sync_panics_partial atime rs f reqs rds cs d rds' c :
  0 < rs -> reachable rs f -> Forall (fun q => 0 <= fst q /\ 0 <= snd q) reqs -> asked rds reqs ->
  sys atime rs (f_size f) (f_ds f, rds) cs = Some (d, rds') -> sys_step atime rs (f_size f) (d, rds') c = None ->
  atime = false /\ exists k b i r, c = Flush k /\ In (k, Inline b) (d_ext d) /\ BLOB_THRESHOLD < zlen b /\
    nth_error rds' i = Some r /\ (forall res, r_ph r <> RDone res).
Proof.
  intros RS HR Lq A ES EN. destruct (begin_inv rs f rds reqs RS HR Lq A) as (Om & HI & Hal).
  assert (NP : forall r, In (r_off r, r_size r) reqs -> alone rs (f_size f) (R (f_ds f)) r <> None) by (intros r I; now apply Hal).
  pose proof (sys_inv rs (f_size f) (R (f_ds f)) Om reqs NP atime cs _ _ HI ES) as HI'.
  destruct atime.
  - destruct (sys_total rs (f_size f) (R (f_ds f)) Om reqs NP [c] _ HI') as (st & E). cbn [sys] in E. rewrite EN in E. discriminate.
  - split; [reflexivity|]. destruct c as [i b|k].
    + destruct (go_ok rs (f_size f) (R (f_ds f)) Om reqs NP false (d, rds') i b HI') as (st & E & _). congruence.
    + cbn [sys_step andb] in EN. unfold flush_at in EN. destruct (zm_get k (d_ext d)) as [[b|r l]|] eqn:G; try discriminate.
      destruct (Z.ltb_spec BLOB_THRESHOLD (zlen b)); [|discriminate]. destruct (existsb (holds k) rds') eqn:Eh; [|discriminate].
      apply existsb_exists in Eh. destruct Eh as (r & I & Hh). apply In_nth_error in I. destruct I as (i & I). exists k, b, i, r.
      split; [reflexivity|]. split; [now apply zm_get_in|]. split; [assumption|]. split; [exact I|]. intros res Er. unfold holds in Hh. now rewrite Er in Hh.
Qed.

(** If access times are kept then nothing panics: syncs wait for reads. *)
Theorem C91_with_access_times rs f reqs rds cs :
  0 < rs -> reachable rs f -> Forall (fun q => 0 <= fst q /\ 0 <= snd q) reqs -> asked rds reqs ->
  sys true rs (f_size f) (f_ds f, rds) cs <> None.
Proof.
  intros RS HR Lq A E. destruct (begin_inv rs f rds reqs RS HR Lq A) as (Om & HI & Hal).
  destruct (sys_total rs (f_size f) (R (f_ds f)) Om reqs (fun r I => proj2 (Hal r I)) cs _ HI) as (st & E'). congruence.
Qed.

(** Otherwise a sync during a read can panic: the file has one record on disk and one written since; the read waits for the
    first while it holds the second. *)
Definition ex_ops : list op := [Write 0 (zrepeat 1 1100); Sync; Write 2048 (zrepeat 2 1100)].
Definition ex_file : file :=
  File (Ds [(0, Blob 0 1100); (2048, Inline (zrepeat 2 1100))] [(0, zrepeat 1 1100)] 1 []) 3148 2200.
Definition ex_sched : list choice := [Go 0 0; Go 0 9999; Go 0 0; Flush 2048].
Theorem C91_sync_panics_refuted : exists rs f xs reqs rds cs,
  0 < rs /\ run rs new_file ex_ops = Some (f, xs) /\ Forall (fun q => 0 <= fst q /\ 0 <= snd q) reqs /\ asked rds reqs /\
  sys false rs (f_size f) (f_ds f, rds) cs = None.
Proof.
  exists 2048, ex_file, [Count 1100; Done; Count 1100], [(0, 4096)], [Reader 0 4096 RStart], ex_sched. split; [lia|]. split; [vm_compute; reflexivity|].
  split; [repeat constructor; cbn; lia|]. split; [reflexivity|]. vm_compute. reflexivity.
Qed.

(** two reads and the flush of the second record between their steps, after both have let go of it *)
Example C91_example : exists f xs d rds, run 2048 new_file ex_ops = Some (f, xs) /\
  sys false 2048 (f_size f) (f_ds f, [Reader 0 4096 RStart; Reader 3000 4 RStart])
      [Go 0 0; Go 0 2000; Go 1 0; Go 0 0; Flush 2048; Go 1 9999; Go 0 0; Go 1 0; Go 0 9999; Go 1 0; Go 0 0; Go 1 0; Go 0 0; Go 0 0] = Some (d, rds) /\
  answers rds 0 (Some (zrepeat 1 1100 ++ zrepeat 0 948 ++ zrepeat 2 1100)) /\ answers rds 1 (Some [2; 2; 2; 2]) /\ d_next d = 2.
Proof.
  exists ex_file, [Count 1100; Done; Count 1100],
    (Ds [(0, Blob 0 1100); (2048, Blob 1 1100)] [(0, zrepeat 1 1100); (1, zrepeat 2 1100)] 2 []),
    [Reader 0 4096 (RDone (Some [zrepeat 1 1100; zrepeat 0 948; zrepeat 2 1100])); Reader 3000 4 (RDone (Some [[2; 2; 2; 2]]))].
  split; [vm_compute; reflexivity|]. split; [vm_compute; reflexivity|].
  split; [|split; [|reflexivity]]; unfold answers; do 3 eexists; (split; [reflexivity|]); vm_compute; reflexivity.
Qed.

Print Assumptions C91_reads_during_sync_partial.
Print Assumptions C91_only_the_sync_panics_partial.
Print Assumptions C91_with_access_times.
Print Assumptions C91_sync_panics_refuted.
