(** C87: requests of the client library to the daemon. *)
From Verif Require Import Common FSM_Model ZMap Prop_Model Forest_Model Rpc_Model.

(** ** What is promised *)

(** Requests that anybody may make: they only look. *)
Definition open_to_all (q : request) : Prop :=
  match q with QFsList _ _ _ | QFsStat _ _ | QPoolList _ _ | QPoolStatus _ => True | _ => False end.

(** Responses that carry no list and no status *)
Definition small (p : response) : Prop :=
  match p with PFsList (ROk _) | PFsStat (ROk _) | PPoolList (ROk _) | PPoolStatus (ROk _) => False | _ => True end.

(** An answer of the controller as the caller of the library sees it *)
Definition seen {St A} (x : option (St * rres A)) : option (St * cres A) :=
  match x with
  | Some (s, ROk a) => Some (s, COk a)
  | Some (s, RErr e) => Some (s, CErr (Other e))
  | None => None
  end.
Definition looked {St A} (s : St) (x : option (rres A)) : option (St * cres A) :=
  seen (match x with Some r => Some (s, r) | None => None end).

Section C87.
Context {St : Type} (K : controller St) (qsize : request -> Z) (rsize : response -> Z).

(** Who is not the daemon's user changes nothing, whatever they ask for, and
    looking changes nothing whoever asks. *)
Theorem C87_no_effect euid uid s s' q s1 p : uid <> euid \/ open_to_all q -> process_rpc K euid uid s s' q = Some (s1, p) -> s1 = s.
Proof.
  intros D E. assert (U : open_to_all q \/ (uid =? euid) = false).
  { destruct D as [D|D]; [right; now apply Z.eqb_neq|now left]. }
  clear D. destruct q; cbn [process_rpc open_to_all] in *;
    try (destruct U as [[]|U]; rewrite U in E; injection E as <- _; reflexivity).
  - destruct (k_list_fs K s name offset) as [[l|e]|]; cbn [obind] in E; [|injection E as <- _; reflexivity|discriminate].
    destruct (with_props K s' props (firstn CHUNKQTY l)); [|discriminate]. injection E as <- _. reflexivity.
  - destruct (get_props K s' name props); [|discriminate]. injection E as <- _. reflexivity.
  - destruct (k_list_pool K s pool offset); [|discriminate]. injection E as <- _. reflexivity.
  - destruct (k_status K s pool); [|discriminate]. injection E as <- _. reflexivity.
Qed.

(** Requests that change something are refused without any work. *)
Theorem C87_denied euid uid s s' q : uid <> euid -> ~ open_to_all q ->
  process_rpc K euid uid s s' q = Some (s, PFsMount (RErr EPERM)) \/ process_rpc K euid uid s s' q = Some (s, PFsSet (RErr EPERM)) \/
  process_rpc K euid uid s s' q = Some (s, PFsUnmount (RErr EPERM)) \/ process_rpc K euid uid s s' q = Some (s, PPoolClean (RErr EPERM)) \/
  process_rpc K euid uid s s' q = Some (s, PPoolAttach (RErr EPERM)).
Proof.
  intros D O. apply Z.eqb_neq in D. destruct q; cbn [process_rpc open_to_all] in *; try rewrite D; auto 6; contradiction O; exact Logic.I.
Qed.

(** *** Messages that fit

    Responses without a list or a status are a few bytes long. *)
Hypothesis RS : forall p, small p -> rsize p < BUFSIZ.

Lemma ask_fits {A} (into : response -> option (rres A)) euid uid s s' q : qsize q < BUFSIZ ->
  (forall s1 p, process_rpc K euid uid s s' q = Some (s1, p) -> rsize p < BUFSIZ) ->
  ask K qsize rsize euid uid into s s' q =
  let* (s, p) := process_rpc K euid uid s s' q in
  let* r := into p in Some (s, match r with ROk x => COk x | RErr e => CErr (Other e) end).
Proof.
  intros Q R. unfold ask, call. destruct (Z.leb_spec BUFSIZ (qsize q)) as [|_]; [lia|].
  destruct (process_rpc K euid uid s s' q) as [[s1 p]|]; [|reflexivity]. cbn [obind]. specialize (R s1 p eq_refl).
  destruct (Z.leb_spec BUFSIZ (rsize p)) as [|_]; [lia|reflexivity].
Qed.

Lemma ask_small {A} (into : response -> option (rres A)) euid uid s s' q : qsize q < BUFSIZ -> ~ open_to_all q ->
  ask K qsize rsize euid uid into s s' q =
  let* (s, p) := process_rpc K euid uid s s' q in
  let* r := into p in Some (s, match r with ROk x => COk x | RErr e => CErr (Other e) end).
Proof.
  intros Q O. apply ask_fits; [exact Q|]. intros s1 p E. apply RS.
  destruct q; cbn [process_rpc open_to_all] in *; try (now contradiction O); destruct (uid =? euid); try (injection E as _ <-; exact Logic.I);
    try (match goal with E : context [let* _ := ?x in _] |- _ => destruct x as [[s2 r]|]; [|discriminate] end; cbn [obind] in E; try (injection E as _ <-; exact Logic.I)).
  destruct r; [|injection E as _ <-; exact Logic.I]. destruct (set_props K s2 name props) as [[s3 r]|]; [|discriminate]. injection E as _ <-. exact Logic.I.
Qed.

(** The daemon's own user is told what the controller answered. *)
Theorem C87_owner_is_answered uid s :
  (forall name, qsize (QFsDestroy name) < BUFSIZ -> fs_destroy K qsize rsize uid uid s name = seen (k_destroy_fs K s name)) /\
  (forall name, qsize (QFsMount name) < BUFSIZ -> fs_mount K qsize rsize uid uid s name = seen (k_mount K s name)) /\
  (forall name force, qsize (QFsUnmount name force) < BUFSIZ -> fs_unmount K qsize rsize uid uid s name force = seen (k_unmount K s name force)) /\
  (forall pool, qsize (QPoolClean pool) < BUFSIZ -> pool_clean K qsize rsize uid uid s pool = seen (k_clean K s pool)) /\
  (forall pool u, qsize (QPoolFault pool u) < BUFSIZ -> pool_fault K qsize rsize uid uid s pool (DUuid u) = seen (k_fault K s pool u)) /\
  (forall pool u leaf, qsize (QPoolAttach pool u leaf) < BUFSIZ ->
     pool_attach K qsize rsize uid uid s pool (DUuid u) leaf = seen (k_attach K s pool u leaf)) /\
  (qsize QDropCache < BUFSIZ -> drop_cache K qsize rsize uid uid s = Some (k_drop_cache K s, COk tt)).
Proof.
  repeat apply conj; intros; unfold fs_destroy, fs_mount, fs_unmount, pool_clean, pool_fault, pool_attach, with_uuid, drop_cache;
    (rewrite ask_small; [|assumption|exact (fun x => x)]); cbn [process_rpc]; rewrite Z.eqb_refl; try reflexivity;
    match goal with |- context [let* _ := ?x in _] => destruct x as [[s1 [x0|e]]|]; reflexivity end.
Qed.

(** Everybody is told what the controller answered to a query. *)
Theorem C87_queries_are_answered euid uid s :
  (forall pool, qsize (QPoolList pool None) < BUFSIZ -> (forall r, k_list_pool K s pool None = Some r -> rsize (PPoolList r) < BUFSIZ) ->
     pool_list K qsize rsize euid uid s pool = looked s (k_list_pool K s pool None)) /\
  (forall pool, qsize (QPoolStatus pool) < BUFSIZ -> (forall r, k_status K s pool = Some r -> rsize (PPoolStatus r) < BUFSIZ) ->
     pool_status K qsize rsize euid uid s pool = looked s (k_status K s pool)).
Proof.
  split; intros pool Q R; unfold pool_list, pool_status; (rewrite ask_fits; [|exact Q|]); cbn [process_rpc].
  - destruct (k_list_pool K s pool None) as [[x|e]|]; reflexivity.
  - intros s1 p E. destruct (k_list_pool K s pool None) as [r|]; [|discriminate]. injection E as _ <-. now apply R.
  - destruct (k_status K s pool) as [[x|e]|]; reflexivity.
  - intros s1 p E. destruct (k_status K s pool) as [r|]; [|discriminate]. injection E as _ <-. now apply R.
Qed.

(** All of the properties were set, one after the other *)
Inductive all_set (name : text) : St -> list property -> St -> Prop :=
| as_nil s : all_set name s [] s
| as_cons s p s1 ps s2 : k_set_prop K s name p = Some (s1, ROk tt) -> all_set name s1 ps s2 -> all_set name s (p :: ps) s2.

Lemma set_props_ok name ps : forall s s1, set_props K s name ps = Some (s1, ROk tt) <-> all_set name s ps s1.
Proof.
  induction ps as [|p ps IH]; intros s s1; cbn [set_props].
  - split; [intros [= <-]; constructor|]. inversion 1. reflexivity.
  - split.
    + destruct (k_set_prop K s name p) as [[s2 [[]|e]]|] eqn:E; cbn [obind]; try discriminate. intros X. econstructor; [exact E|]. now apply IH.
    + inversion 1; subst. match goal with X : k_set_prop _ _ _ _ = _ |- _ => rewrite X end. cbn [obind]. now apply IH.
Qed.

(** Setting properties: success means that all were set, failure that those before
    the one that failed were. *)
Theorem C87_set uid s name ps s1 : qsize (QFsSet name ps) < BUFSIZ ->
  (fs_set K qsize rsize uid uid s name ps = Some (s1, COk tt) <-> all_set name s ps s1) /\
  forall e, fs_set K qsize rsize uid uid s name ps = Some (s1, CErr e) ->
    exists ps1 p ps2 s2 n, ps = ps1 ++ p :: ps2 /\ all_set name s ps1 s2 /\ k_set_prop K s2 name p = Some (s1, RErr n) /\ e = Other n.
Proof.
  intros QS. unfold fs_set. rewrite ask_small by (exact QS || exact (fun x => x)). cbn [process_rpc]. rewrite Z.eqb_refl. split.
  - rewrite <- set_props_ok. destruct (set_props K s name ps) as [[s2 [[]|e]]|]; cbn; split; congruence.
  - intros e E. assert (X : exists n, set_props K s name ps = Some (s1, RErr n) /\ e = Other n).
    { destruct (set_props K s name ps) as [[s2 [[]|n]]|]; cbn in E; try discriminate. injection E as <- <-. eauto. }
    destruct X as (n & X & ->). clear E QS. revert s X. induction ps as [|p ps IH]; intros s X; cbn [set_props] in X; [discriminate|].
    destruct (k_set_prop K s name p) as [[s2 [[]|m]]|] eqn:Ep; cbn [obind] in X; try discriminate.
    + destruct (IH _ X) as (ps1 & p' & ps2 & s3 & m & -> & A & B & C). exists (p :: ps1), p', ps2, s3, m. split; [reflexivity|].
      split; [econstructor; eauto|]. auto.
    + injection X as <- <-. exists [], p, ps, s, m. split; [reflexivity|]. split; [constructor|]. auto.
Qed.

(** Creating: success means that the data set was created and all of its
    properties set. *)
Theorem C87_create uid s name ps s1 id : qsize (QFsCreate name ps) < BUFSIZ ->
  fs_create K qsize rsize uid uid s name ps = Some (s1, COk id) <-> exists s2, k_create_fs K s name = Some (s2, ROk id) /\ all_set name s2 ps s1.
Proof.
  intros QS. unfold fs_create. rewrite ask_small by (exact QS || exact (fun x => x)). cbn [process_rpc]. rewrite Z.eqb_refl. split.
  - destruct (k_create_fs K s name) as [[s2 [i|e]]|]; cbn [obind into_fs_create]; try discriminate.
    destruct (set_props K s2 name ps) as [[s3 [[]|e]]|] eqn:E; cbn [obind into_fs_create]; try discriminate. intros [= <- <-]. exists s2.
    split; [reflexivity|]. now apply set_props_ok.
  - intros (s2 & -> & A). apply set_props_ok in A. cbn [obind]. rewrite A. reflexivity.
Qed.

(** Who may not do something is told so — of the five methods that get it right. *)
Theorem C87_denied_is_told_partial euid uid s : uid <> euid ->
  (forall name, qsize (QFsMount name) < BUFSIZ -> fs_mount K qsize rsize euid uid s name = Some (s, CErr (Other EPERM))) /\
  (forall name ps, qsize (QFsSet name ps) < BUFSIZ -> fs_set K qsize rsize euid uid s name ps = Some (s, CErr (Other EPERM))) /\
  (forall name force, qsize (QFsUnmount name force) < BUFSIZ -> fs_unmount K qsize rsize euid uid s name force = Some (s, CErr (Other EPERM))) /\
  (forall pool, qsize (QPoolClean pool) < BUFSIZ -> pool_clean K qsize rsize euid uid s pool = Some (s, CErr (Other EPERM))) /\
  (forall pool u leaf, qsize (QPoolAttach pool u leaf) < BUFSIZ ->
     pool_attach K qsize rsize euid uid s pool (DUuid u) leaf = Some (s, CErr (Other EPERM))).
Proof.
  intros D. apply Z.eqb_neq in D. repeat apply conj; intros; unfold fs_mount, fs_set, fs_unmount, pool_clean, pool_attach, with_uuid;
    (rewrite ask_small; [|assumption|exact (fun x => x)]); cbn [process_rpc]; rewrite D; reflexivity.
Qed.

(** A disk given by its path is the one that the pool's status lists under that
    path; with no such disk nothing is done. *)
Definition leaf_of (st : poolst) (l : leafst) : Prop :=
  exists c m, In c (ps_clusters st) /\ In m (cl_mirrors c) /\ In l (mi_leaves m).

Lemma text_eqb_spec a : forall b, text_eqb a b = true <-> a = b.
Proof.
  induction a as [|x a IH]; intros [|y b]; cbn [text_eqb]; split; try congruence; try discriminate; intros E.
  - apply andb_true_iff in E. destruct E as [E1 E2]. apply Z.eqb_eq in E1. apply IH in E2. congruence.
  - injection E as <- <-. rewrite Z.eqb_refl. now apply IH.
Qed.

Lemma into_uuid_ok path st : match into_uuid path st with
  | Some u => exists l, leaf_of st l /\ lf_path l = path /\ lf_uuid l = u
  | None => forall l, leaf_of st l -> lf_path l <> path
  end.
Proof.
  unfold into_uuid. set (ls := concat _).
  assert (X : forall l, In l ls <-> leaf_of st l).
  { intros l. unfold ls, leaf_of. rewrite <- !flat_map_concat_map, in_flat_map. split.
    - intros (m & Hm & Hl). apply in_flat_map in Hm. destruct Hm as (c & Hc & Hm). eauto 6.
    - intros (c & m & Hc & Hm & Hl). exists m. split; [|exact Hl]. apply in_flat_map. eauto. }
  destruct (find _ ls) as [l|] eqn:E; cbn [option_map].
  - apply find_some in E. destruct E as [E1 E2]. apply text_eqb_spec in E2. exists l. split; [now apply X|]. auto.
  - intros l Hl. pose proof (find_none _ _ E l ltac:(now apply X)) as Y. cbn beta in Y. intros Q. apply text_eqb_spec in Q. congruence.
Qed.

Theorem C87_by_path uid s pool path leaf st : k_status K s pool = Some (ROk st) ->
  qsize (QPoolStatus pool) < BUFSIZ -> rsize (PPoolStatus (ROk st)) < BUFSIZ ->
  (forall u, qsize (QPoolFault pool u) < BUFSIZ) -> (forall u, qsize (QPoolAttach pool u leaf) < BUFSIZ) ->
  (exists l, leaf_of st l /\ lf_path l = path /\
     pool_fault K qsize rsize uid uid s pool (DPath path) = seen (k_fault K s pool (lf_uuid l)) /\
     pool_attach K qsize rsize uid uid s pool (DPath path) leaf = seen (k_attach K s pool (lf_uuid l) leaf)) \/
  ((forall l, leaf_of st l -> lf_path l <> path) /\
     pool_fault K qsize rsize uid uid s pool (DPath path) = Some (s, CErr NoDevice) /\
     pool_attach K qsize rsize uid uid s pool (DPath path) leaf = Some (s, CErr NoDevice)).
Proof.
  intros E S1 S2 S3 S4. destruct (C87_owner_is_answered uid s) as (_ & _ & _ & _ & F & A & _).
  destruct (C87_queries_are_answered uid uid s) as [_ Q].
  unfold pool_fault, pool_attach in *. cbn [with_uuid] in *. rewrite Q, E; [|exact S1|intros r X; rewrite E in X; injection X as <-; exact S2]. cbn [looked seen obind].
  pose proof (into_uuid_ok path st) as X. destruct (into_uuid path st) as [u|].
  - left. destruct X as (l & L1 & L2 & <-). exists l. split; [exact L1|]. split; [exact L2|]. split; [apply F, S3|apply A, S4].
  - right. auto.
Qed.
End C87.

(** ** What is not promised by the code *)

(** Who may not drop the caches, create or destroy a data set or fault a device
    is not told so: the daemon answers with the response to another kind of
    request, on which the client panics. *)
Theorem C87_denied_is_told_refuted {St} (K : controller St) euid uid s : uid <> euid ->
  (exists p, process_rpc K euid uid s s QDropCache = Some (s, p) /\ into_debug_drop_cache p = None) /\
  (forall name ps, exists p, process_rpc K euid uid s s (QFsCreate name ps) = Some (s, p) /\ into_fs_create p = None) /\
  (forall name, exists p, process_rpc K euid uid s s (QFsDestroy name) = Some (s, p) /\ into_fs_destroy p = None) /\
  (forall pool u, exists p, process_rpc K euid uid s s (QPoolFault pool u) = Some (s, p) /\ into_pool_fault p = None).
Proof.
  intros D. apply Z.eqb_neq in D. repeat apply conj; intros; cbn [process_rpc]; rewrite D; eauto.
Qed.

(** A creation that fails because of a property has created the data set. *)
Theorem C87_failed_create_refuted {St} (K : controller St) qsize rsize uid s name p ps s1 id s2 e :
  (forall p, small p -> rsize p < BUFSIZ) -> qsize (QFsCreate name (p :: ps)) < BUFSIZ ->
  k_create_fs K s name = Some (s1, ROk id) -> k_set_prop K s1 name p = Some (s2, RErr e) ->
  fs_create K qsize rsize uid uid s name (p :: ps) = Some (s2, CErr (Other e)).
Proof.
  intros RS QS E1 E2. unfold fs_create. rewrite ask_small by (exact RS || exact QS || exact (fun x => x)). cbn [process_rpc]. rewrite Z.eqb_refl, E1. cbn [obind set_props].
  rewrite E2. reflexivity.
Qed.

(** A small controller: the state is the list of names, and properties of the
    data set "x" cannot be set. *)
Definition toy_status : poolst := mkpoolst WOnline [112] [mkcluster WOnline [82] [mkmirror [mkleaf WOnline [100; 49] 7; mkleaf WOnline [100; 50] 8] WOnline 6] 5] 4.
Definition toy : controller (list text) := {|
  k_drop_cache := fun s => s;
  k_create_fs := fun s name => if existsb (text_eqb name) s then Some (s, RErr 17) else Some (name :: s, ROk (zlen s));
  k_destroy_fs := fun s name => if existsb (text_eqb name) s then Some (filter (fun n => negb (text_eqb name n)) s, ROk tt) else Some (s, RErr 2);
  k_list_fs := fun s name offs => Some (ROk []);
  k_get_prop := fun s name n => Some (if existsb (text_eqb name) s then ROk (Atime true, SDefault) else RErr 2);
  k_set_prop := fun s name p => Some (s, if text_eqb name [120] then RErr 5 else ROk tt);
  k_mount := fun s name => Some (s, RErr 2);
  k_unmount := fun s name f => Some (s, RErr 2);
  k_clean := fun s pool => Some (s, ROk tt);
  k_fault := fun s pool u => Some (s, if u =? 8 then ROk tt else RErr 2);
  k_attach := fun s pool u leaf => Some (s, RErr 2);
  k_list_pool := fun s pool offs => Some (ROk [([112], 0)]);
  k_status := fun s pool => Some (if text_eqb pool [112] then ROk toy_status else RErr 2)
|}.

Example C87_example :
  fs_create toy (fun _ => 10) (fun _ => 10) 0 0 [] [97] [Atime false] = Some ([[97]], COk 0) /\
  fs_mount toy (fun _ => 10) (fun _ => 10) 0 1001 [[97]] [97] = Some ([[97]], CErr (Other EPERM)) /\
  fs_destroy toy (fun _ => 10) (fun _ => 10) 0 1001 [[97]] [97] = None /\
  pool_fault toy (fun _ => 10) (fun _ => 10) 0 0 [] [112] (DPath [100; 50]) = Some ([], COk tt) /\
  pool_fault toy (fun _ => 10) (fun _ => 10) 0 0 [] [112] (DPath [100; 51]) = Some ([], CErr NoDevice) /\
  fs_create toy (fun _ => 10) (fun _ => 10) 0 0 [] [120] [Atime false] = Some ([[120]], CErr (Other 5)).
Proof. repeat apply conj; reflexivity. Qed.

Print Assumptions C87_no_effect.
Print Assumptions C87_denied.
Print Assumptions C87_owner_is_answered.
Print Assumptions C87_queries_are_answered.
Print Assumptions C87_set.
Print Assumptions C87_create.
Print Assumptions C87_denied_is_told_partial.
Print Assumptions C87_by_path.
Print Assumptions C87_denied_is_told_refuted.
Print Assumptions C87_failed_create_refuted.
