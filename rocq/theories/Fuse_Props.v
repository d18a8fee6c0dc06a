(** What the kernel gets from the FUSE front end (C77, C78). *)
From Verif Require Import Common HTable_Model HTable_Props Names_Model Names_Dir Names_Proofs Names_Ops Names_Ops2 Names_Spec Names_Props Fuse_Model.

(** ** The kernel *)
(** What the kernel knows: how often each file has been given to it since it last forgot the file, whether it is a directory,
    and the names it has seen. *)
Record kernel := Kern { held : Z -> Z; kdir : Z -> bool; seen : Z -> name -> bool }.
Definition boot : kernel := Kern (fun _ => 0) (fun _ => false) (fun _ _ => false).
Definition see (k : kernel) (p : Z) (n : name) (v : bool) : kernel :=
  Kern (held k) (kdir k) (fun p' n' => if same p' n' p n then v else seen k p' n').
Definition take (k : kernel) (i : Z) (b : bool) : kernel :=
  Kern (fun j => if j =? i then held k i + 1 else held k j) (fun j => if j =? i then b else kdir k j) (seen k).
Definition drop_file (k : kernel) (i : Z) : kernel := Kern (fun j => if j =? i then 0 else held k j) (kdir k) (seen k).
(** A reply to lookup, create, mkdir, mknod or symlink gives the kernel the file once more; that to link does not. *)
Definition told (k : kernel) (q : req) (r : reply) : kernel :=
  match q, r with
  | Lookup p n, Entry i b _ | MkFile p n, Entry i b _ | MkDir p n, Entry i b _ => take (see k p n true) i b
  | MkLink _ p n, Entry _ _ _ => see k p n true
  | Remove p n, Done | RmDir p n, Done => see k p n false
  | Move p n np nn, Done => see (see k p n false) np nn true
  | Forget i _, _ => if i =? 1 then k else drop_file k i
  | _, _ => k
  end.

Section Props.
Context (hash : name -> Z) (dhash : Z -> Z).
Notation Inv := (Inv hash dhash).
Notation lookup := (lookup hash).
Notation legal := (legal hash).
Notation lucky := (lucky hash dhash).
Notation Did := (Did hash dhash).
Notation above := (above hash).
Notation in_tree := (in_tree hash).
Notation cache := (cache hash).
Notation N := (N hash).

Definition holds (k : kernel) (i : Z) : Prop := i = 1 \/ 0 < held k i.
(** The requests a kernel sends.  It refers only to files it holds, and forgets a file completely.  Before it unlinks a name of a
    file it holds, and before it renames, it looks the names up.  It renames only if it holds the directories above the
    destination, and never a name to itself.  The last three conditions of [sensible] on hash collisions and open files are
    those of C39 and C40, and are needed because of defects of the file system. *)
Definition sensible (k : kernel) (s : fs) (q : req) : Prop :=
  match q with
  | Lookup p n => holds k p /\ n <> DOTDOT
  | MkFile p n => holds k p /\ legal s (Create p n)
  | MkDir p n => holds k p /\ legal s (Mkdir p n)
  | MkLink i p n => holds k p /\ holds k i /\ legal s (Link p i n) /\ lucky s (Link p i n)
  | Remove p n => holds k p /\ legal s (Unlink p n true) /\ lucky s (Unlink p n true) /\
      (forall i, lookup s p n = Some i -> 0 < held k i -> seen k p n = true)
  | RmDir p n => holds k p /\ legal s (Rmdir p n)
  | Move p n np nn => holds k p /\ holds k np /\ (forall a, above s np a -> holds k a) /\ seen k p n = true /\
      ordinary n /\ (p, n) <> (np, nn) /\ (lookup s np nn <> None -> seen k np nn = true) /\
      forall fd, lookup s p n = Some fd -> holds k fd /\ np <> fd /\ legal s (Rename p fd n np (lookup s np nn) nn) /\
        forall v, lookup s np nn = Some v -> getattr s v = Some (false, 1) -> held k v = 0
  | Forget i c => i = 1 \/ 0 < held k i /\ c = held k i /\ lucky s (Inactive i)
  | Getattr i => holds k i
  end.

(** ** What the kernel relies on *)
Definition unchanged (s s' : fs) : Prop := (forall d m, lookup s' d m = lookup s d m) /\ forall i, getattr s' i = getattr s i.
(** what operation [o] of the file system should give and do: C60 *)
Definition done (s : fs) (o : op) (r : result) (s' : fs) : Prop := outcome hash s o r /\ forall d m, lookup s' d m = expected hash s o r d m.
Definition right (s : fs) (q : req) (r : reply) (s' : fs) : Prop :=
  match q with
  | Lookup p n => unchanged s s' /\
      match lookup s p n with Some i => exists b l, getattr s i = Some (b, l) /\ r = Entry i b l | None => r = Fail ENOENT end
  | Getattr i => unchanged s s' /\ r = match getattr s i with Some (b, l) => Entry i b l | None => Fail ENOENT end
  | MkFile p n => exists i l, r = Entry i false l /\ getattr s' i = Some (false, l) /\ done s (Create p n) (ROk i) s'
  | MkDir p n => exists i l, r = Entry i true l /\ getattr s' i = Some (true, l) /\ done s (Mkdir p n) (ROk i) s'
  | MkLink i p n => exists l, r = Entry i false l /\ getattr s' i = Some (false, l) /\ done s (Link p i n) (ROk i) s'
  | Remove p n => match lookup s p n with
                  | Some i => r = Done /\ done s (Unlink p n true) (ROk i) s'
                  | None => r = Fail ENOENT /\ forall d m, lookup s' d m = lookup s d m
                  end
  | RmDir p n => (exists i, r = Done /\ done s (Rmdir p n) (ROk i) s') \/ (exists e, r = Fail e /\ done s (Rmdir p n) (RErr e) s')
  | Move p n np nn => exists fd, lookup s p n = Some fd /\
      (above s np fd -> r = Fail EINVAL /\ unchanged s s') /\
      (~ above s np fd -> (r = Done /\ done s (Rename p fd n np (lookup s np nn) nn) (ROk fd) s') \/
                          (exists e, r = Fail e /\ done s (Rename p fd n np (lookup s np nn) nn) (RErr e) s'))
  | Forget i _ => r = Done /\ forall d m, lookup s' d m = lookup s d m
  end.
(** a file that the kernel holds exists, and a file without a name exists only while the kernel holds it *)
Definition safe (k : kernel) (s : fs) : Prop :=
  (forall i, 0 < held k i -> kdir k i = false -> plain s i) /\ (forall i, getattr s i = Some (false, 0) -> 0 < held k i).
(** as long as the requests are sensible, they are answered rightly *)
Fixpoint follow (x : ffs) (k : kernel) (l : list req) : Prop :=
  safe k (base x) /\
  match l with
  | [] => True
  | q :: l => sensible k (base x) q ->
      exists fuel r x', fstep hash dhash fuel x q = Some (r, x') /\ right (base x) q r (base x') /\ follow x' (told k q r) l
  end.

(** ** The invariant *)
Lemma attr_getattr s i : attr s i = match getattr s i with Some (b, l) => Entry i b l | None => Fail ENOENT end.
Proof. unfold attr, getattr. destruct (inodes s i); reflexivity. Qed.
Lemma getattr_kind s i b : kind s i = Some b -> exists l, getattr s i = Some (b, l).
Proof. unfold kind, getattr. destruct (inodes s i) as [v|]; [|discriminate]. cbn. intros E. injection E as <-. eauto. Qed.
Lemma getattr_none s i : kind s i = None -> getattr s i = None.
Proof. unfold kind, getattr. destruct (inodes s i); [discriminate|reflexivity]. Qed.
Lemma dir_get_N s p n : Inv s -> dir_get hash (ents s p) n = match N s p n with Some e => Ok (n, e) | None => NotFound end.
Proof.
  intros [V _]. pose proof (dir_get_spec hash (ents s p) n (iv_wf _ _ _ _ _ V p)) as H. unfold Names_Ops.N. destruct (dir_get hash (ents s p) n) as [[n' e]| |]; [|reflexivity|contradiction]. destruct H as [-> _]. reflexivity.
Qed.
Lemma cache_kind s i : cache s i = match kind s i with Some true => Some (if i =? 1 then None else lookup s i DOTDOT) | Some false => Some None | None => None end.
Proof. unfold Names_Props.cache, getattr, kind. destruct (inodes s i) as [v|]; [|reflexivity]. cbn. destruct (i_isdir v); reflexivity. Qed.
Lemma dir_kind s i : directory s i <-> kind s i = Some true.
Proof. rewrite directory_isdir. apply isdir_kind. Qed.
Lemma kind_next s i b : Inv s -> kind s i = Some b -> i < nexto s.
Proof. intros [V _] K. unfold kind in K. destruct (inodes s i) as [v|] eqn:E; [|discriminate]. pose proof (iv_rng _ _ _ _ _ V i v E). lia. Qed.
Lemma root_kind s : Inv s -> kind s 1 = Some true.
Proof. intros [V _]. destruct (iv_root _ _ _ _ _ V) as (v & E & D). unfold kind. rewrite E. cbn. now rewrite D. Qed.
Lemma not_root s p n i : Inv s -> ordinary n -> lookup s p n = Some i -> i <> 1.
Proof. intros I On E ->. destruct (counts hash dhash s I) as (_ & _ & (k & L & _ & [_ X] & _) & _). apply (proj2 (X p n)). auto. Qed.
Lemma name_kind s p n i b : Inv s -> ordinary n -> N s p n = Some (i, b) -> kind s i = Some b.
Proof. intros I On E. exact (N_kind hash dhash s p n i b I E On). Qed.
Lemma lookup_kind s p n i : Inv s -> ordinary n -> lookup s p n = Some i -> exists b, N s p n = Some (i, b) /\ kind s i = Some b.
Proof. intros I On E. apply lookup_some in E. destruct E as (b & E). exists b. split; [exact E|exact (name_kind s p n i b I On E)]. Qed.
Lemma name_parent s p n i : Inv s -> ordinary n -> lookup s p n = Some i -> kind s i = Some true -> lookup s i DOTDOT = Some p.
Proof.
  intros I On E K. pose proof (not_root s p n i I On E) as H1. destruct (getattr_kind s i true K) as (l & G). destruct (counts hash dhash s I) as (_ & X & _). destruct (X i l G H1) as (_ & (q & m & [_ HL] & Eq) & _). destruct (proj2 (HL p n) (conj On E)) as [E1|[]]. congruence.
Qed.
Lemma cache_of_name s p n i b : Inv s -> ordinary n -> lookup s p n = Some i -> kind s i = Some b -> cache s i = Some (if b then Some p else None).
Proof.
  intros I On E K. rewrite cache_kind, K. destruct b; [|reflexivity]. destruct (Z.eqb_spec i 1) as [->|]; [destruct (not_root s p n 1 I On E eq_refl)|]. f_equal. exact (name_parent s p n i I On E K).
Qed.
Lemma dot_lookup s p : Inv s -> kind s p = Some true -> N s p DOT = Some (p, true).
Proof.
  intros [V _] K. unfold kind in K. destruct (inodes s p) as [v|] eqn:E; [|discriminate]. injection K as K. apply N_iff; [exact (iv_wf _ _ _ _ _ V p)|]. exact (proj1 (iv_dot _ _ _ _ _ V p v E K ltac:(tauto))).
Qed.
Lemma N_dir s p n e : Inv s -> N s p n = Some e -> kind s p = Some true.
Proof. intros I E. apply dir_kind. destruct e as [i b]. apply (lookup_dir hash dhash s p n i I). apply lookup_some. eauto. Qed.

(** the file cache *)
Record Files (s : fs) (f : Z -> option fdata) (k : kernel) : Prop := {
  fl_pos : forall i, 0 <= held k i;
  fl_root : exists c, f 1 = Some (FData c None) /\ 0 < c;
  fl_file : forall i, i <> 1 -> match f i with
     | Some d => 0 < f_count d /\ f_count d = held k i /\ i < nexto s /\ (kind s i <> None -> cache s i = Some (f_parent d))
     | None => held k i = 0 end;
  fl_dir : forall i, 0 < held k i -> kdir k i = true -> kind s i <> Some false }.
(** the name cache *)
Record Known (s : fs) (nm : Z -> name -> option Z) (k : kernel) : Prop := {
  kn_name : forall p n i, nm p n = Some i -> ordinary n -> lookup s p n = Some i;
  kn_dotdot : forall p, nm p DOTDOT = None;
  kn_dot : forall p i, nm p DOT = Some i -> i = p /\ p < nexto s /\ kind s p <> Some false;
  kn_seen : forall p n, seen k p n = true -> nm p n <> None }.
Definition open (k : kernel) (i : Z) : bool := (0 <? held k i) && negb (kdir k i).
Record FI (x : ffs) (k : kernel) : Prop := {
  fi_inv : Inv (base x);
  fi_tree : forall d, directory (base x) d -> in_tree (base x) d;
  fi_files : Files (base x) (files x) k;
  fi_known : Known (base x) (names x) k;
  fi_open : Open39 (base x) (open k) }.

Lemma open_ext s O O' : (forall i, O i = O' i) -> Open39 s O -> Open39 s O'.
Proof. intros E [A B]. split; intros i; [rewrite <- E; apply A|rewrite <- E; apply B]. Qed.
Lemma FI_safe x k : FI x k -> safe k (base x).
Proof.
  intros [I _ F _ [A B]]. split.
  - intros i H D. apply plain_kind, A. unfold open. rewrite D. destruct (Z.ltb_spec 0 (held k i)); [reflexivity|lia].
  - intros i G. apply nameless_dead, B in G. unfold open in G. apply andb_true_iff in G. destruct G as [G _]. now apply Z.ltb_lt.
Qed.
Lemma holds_file s f k i : Files s f k -> holds k i -> exists d, f i = Some d /\ 0 < f_count d.
Proof.
  intros F H. destruct (Z.eq_dec i 1) as [->|Hi].
  - destruct (fl_root _ _ _ F) as (c & E & Hc). exists (FData c None). auto.
  - destruct H as [|H]; [contradiction|]. pose proof (fl_file _ _ _ F i Hi) as X. destruct (f i) as [d|]; [|lia]. exists d. tauto.
Qed.
Lemma file_count s f k i d : Files s f k -> f i = Some d -> 0 < f_count d.
Proof.
  intros F E. destruct (Z.eq_dec i 1) as [->|Hi].
  - destruct (fl_root _ _ _ F) as (c & E' & Hc). rewrite E in E'. injection E' as ->. exact Hc.
  - pose proof (fl_file _ _ _ F i Hi) as X. rewrite E in X. tauto.
Qed.
Lemma handle_held x k i : FI x k -> holds k i -> exists d, files x i = Some d /\ handle x i = Some d.
Proof. intros H Hi. destruct (holds_file _ _ _ i (fi_files _ _ H) Hi) as (d & E & C). exists d. split; [exact E|]. unfold handle. rewrite E. destruct (Z.ltb_spec 0 (f_count d)); [reflexivity|lia]. Qed.
Lemma handle_opt_files x k i : FI x k -> handle_opt x i = Some (files x i).
Proof. intros H. unfold handle_opt. destruct (files x i) as [d|] eqn:E; [|reflexivity]. pose proof (file_count _ _ _ i d (fi_files _ _ H) E). destruct (Z.ltb_spec 0 (f_count d)); [reflexivity|lia]. Qed.

(** ** Giving a file to the kernel *)
Definition bump (f : Z -> option fdata) (i : Z) (par : option Z) : Z -> option fdata :=
  upd f i (Some (match f i with Some o => FData (f_count o + 1) (f_parent o) | None => FData 1 par end)).
Lemma files_take s f k p n v i b par : Inv s -> Files s f k -> kind s i = Some b -> cache s i = Some par -> Files s (bump f i par) (take (see k p n v) i b).
Proof.
  intros I F K C. constructor; cbn [held kdir seen take see].
  - intros j. destruct (j =? i); [pose proof (fl_pos _ _ _ F i); lia|apply (fl_pos _ _ _ F)].
  - destruct (fl_root _ _ _ F) as (c & E & Hc). unfold bump, upd. destruct (Z.eqb_spec 1 i) as [<-|]; [|eauto]. rewrite E. cbn [f_count f_parent]. exists (c + 1). split; [reflexivity|lia].
  - intros j Hj. pose proof (fl_file _ _ _ F j Hj) as X. unfold bump, upd. destruct (Z.eqb_spec j i) as [->|]; [|exact X]. pose proof (kind_next s i b I K) as Hn. destruct (f i) as [d|]; cbn [f_count f_parent].
    + destruct X as (X1 & X2 & X3 & X4). repeat split; [lia|lia|exact Hn|]. intros _. apply X4. congruence.
    + rewrite X. split; [lia|]. split; [lia|]. split; [exact Hn|auto].
  - intros j. destruct (Z.eqb_spec j i) as [->|]; [|apply (fl_dir _ _ _ F)]. intros _ ->. congruence.
Qed.
Lemma open_take s k p n v i b : 0 <= held k i -> kind s i = Some b -> Open39 s (open k) -> Open39 s (open (take (see k p n v) i b)).
Proof.
  intros P K [A B]. split; intros j; unfold open; cbn [held kdir take see]; destruct (Z.eqb_spec j i) as [->|]; try apply A; try apply B.
  - intros H. apply andb_true_iff in H. destruct H as [_ H]. apply negb_true_iff in H. congruence.
  - intros D. pose proof (dead_plain s i D) as X. assert (b = false) by congruence. subst b. destruct (Z.ltb_spec 0 (held k i + 1)); [reflexivity|lia].
Qed.
Lemma known_more s nm k p n i b : Known s nm k -> n <> DOTDOT -> (ordinary n -> lookup s p n = Some i) -> (n = DOT -> i = p /\ p < nexto s /\ kind s p <> Some false) ->
  Known s (fun p' n' => if (p' =? p) && name_eqb n' n then Some i else nm p' n') (take (see k p n true) i b).
Proof.
  intros Kn Nd Ho Hd. constructor.
  - intros p' n' j E On. fold (same p' n' p n) in E. destruct (same_spec p' n' p n) as [[-> ->]|]; [injection E as <-; auto|exact (kn_name _ _ _ Kn p' n' j E On)].
  - intros p'. fold (same p' DOTDOT p n). destruct (same_spec p' DOTDOT p n) as [[_ E]|]; [congruence|apply (kn_dotdot _ _ _ Kn)].
  - intros p' j E. fold (same p' DOT p n) in E. destruct (same_spec p' DOT p n) as [[-> E']|]; [injection E as <-; auto|exact (kn_dot _ _ _ Kn p' j E)].
  - intros p' n' E. cbn [seen take see] in E. fold (same p' n' p n). destruct (same p' n' p n); [discriminate|exact (kn_seen _ _ _ Kn p' n' E)].
Qed.
(** the name was in the cache *)
Lemma known_again s nm k p n i b : Known s nm k -> nm p n <> None -> Known s nm (take (see k p n true) i b).
Proof.
  intros Kn H. constructor; [apply (kn_name _ _ _ Kn)|apply (kn_dotdot _ _ _ Kn)|apply (kn_dot _ _ _ Kn)|]. intros p' n' E. cbn [seen take see] in E. destruct (same_spec p' n' p n) as [[E1 E2]|_]; [rewrite E1, E2; exact H|exact (kn_seen _ _ _ Kn p' n' E)].
Qed.
Lemma FI_take x k p n i b par : FI x k -> kind (base x) i = Some b -> cache (base x) i = Some par -> names x p n <> None ->
  FI (FFs (base x) (bump (files x) i par) (names x)) (take (see k p n true) i b).
Proof.
  intros [I T F Kn O] K C H. constructor; cbn [base files names]; auto.
  - now apply files_take.
  - now apply known_again.
  - apply open_take; auto. apply (fl_pos _ _ _ F).
Qed.
Lemma FI_new x k p n i b par : FI x k -> kind (base x) i = Some b -> cache (base x) i = Some par -> n <> DOTDOT -> (ordinary n -> lookup (base x) p n = Some i) -> (n = DOT -> i = p /\ p < nexto (base x) /\ kind (base x) p <> Some false) ->
  FI (FFs (base x) (bump (files x) i par) (fun p' n' => if (p' =? p) && name_eqb n' n then Some i else names x p' n')) (take (see k p n true) i b).
Proof.
  intros [I T F Kn O] K C Nd Ho Hd. constructor; cbn [base files names]; auto.
  - now apply files_take.
  - now apply known_more.
  - apply open_take; auto. apply (fl_pos _ _ _ F).
Qed.

(** ** What an operation does to the caches' view *)
Lemma no_dotdot n d p : ordinary n -> same d DOTDOT p n = false.
Proof. intros On. destruct (same_spec d DOTDOT p n) as [[_ <-]|]; [now destruct (proj2 On)|reflexivity]. Qed.
Lemma kind_step s o r s' i : Did s o r s' -> (forall e, o <> Mount e) -> i < nexto s -> kind s' i <> None -> kind s' i = kind s i.
Proof.
  intros D NM Hi Ki. pose proof (did_kind _ _ _ _ _ _ D i) as Kd. destruct r as [j|e]; [|destruct o; exact Kd].
  destruct o as [p n|p n|p c n|p n a|p n|p fd n np newino nn|c|e]; try exact Kd.
  - pose proof (did_next _ _ _ _ _ _ D) as [X _]. injection X as ->. destruct (Z.eqb_spec i (nexto s)); [lia|exact Kd].
  - pose proof (did_next _ _ _ _ _ _ D) as [X _]. injection X as ->. destruct (Z.eqb_spec i (nexto s)); [lia|exact Kd].
  - destruct ((i =? j) && ((refs s j =? 1) && negb a)); [congruence|exact Kd].
  - destruct (i =? j); [congruence|exact Kd].
  - destruct (replaced hash s p n np nn) as [[v b']|]; [|exact Kd]. destruct ((i =? v) && (b' || (refs s v =? 1))); [congruence|exact Kd].
  - destruct ((i =? c) && dead s c); [congruence|exact Kd].
  - destruct (NM e eq_refl).
Qed.
Definition cached_after (s : fs) (o : op) (r : result) (i : Z) : option (option Z) :=
  match o, r with
  | Rename p fd n np _ _, ROk _ => if i =? fd then match cache s i with Some (Some _) => Some (Some np) | x => x end else cache s i
  | _, _ => cache s i
  end.
Lemma cache_step s o r s' i : hash DOT <> hash DOTDOT -> Inv s -> legal s o -> Did s o r s' -> (forall e, o <> Mount e) -> i < nexto s -> kind s' i <> None -> cache s' i = cached_after s o r i.
Proof.
  intros Hh I L D NM Hi Ki. pose proof (kind_step s o r s' i D NM Hi Ki) as K. pose proof (did_names _ _ _ _ _ _ D) as HN. pose proof (did_out _ _ _ _ _ _ D Hh) as Ho. pose proof (did_kind _ _ _ _ _ _ D i) as Kd.
  assert (Same : (kind s i = Some true -> i <> 1 -> lookup s' i DOTDOT = lookup s i DOTDOT) -> cache s' i = cache s i).
  { intros H. rewrite !cache_kind, K. destruct (kind s i) as [[|]|]; [|reflexivity|reflexivity]. destruct (Z.eqb_spec i 1); [reflexivity|]. f_equal. auto. }
  destruct r as [j|e].
  2:{ assert (X : cache s' i = cache s i) by (apply Same; intros _ _; rewrite HN; apply expected_err). destruct o; exact X. }
  destruct o as [p n|p n|p c n|p n a|p n|p fd n np newino nn|c|e]; cbn [expected Names_Spec.legal outcome cached_after] in *.
  - apply Same. intros _ _. rewrite HN, no_dotdot by apply L. reflexivity.
  - apply Same. intros _ _. rewrite HN, no_dotdot by apply L. pose proof (did_next _ _ _ _ _ _ D) as [X _]. injection X as ->. destruct (Z.eqb_spec i (nexto s)); [lia|reflexivity].
  - apply Same. intros _ _. rewrite HN, no_dotdot by apply L. reflexivity.
  - apply Same. intros _ _. rewrite HN, no_dotdot by apply L. reflexivity.
  - apply Same. intros _ _. rewrite HN, no_dotdot by apply L. destruct (Z.eqb_spec i j); [congruence|reflexivity].
  - destruct L as (Dp & Dnp & Onn & Elf & Eln & Hk). destruct Ho as (-> & On & Hem). cbn zeta in HN.
    assert (G : match newino with Some v => (match getattr s v with Some (b, _) => b | None => false end) && negb (same p n np nn) && (i =? v) | None => false end = false).
    { destruct newino as [v|]; [|reflexivity]. apply not_true_iff_false. intros X. apply andb_true_iff in X. destruct X as [X Ev]. apply andb_true_iff in X. destruct X as [X1 X2]. apply Z.eqb_eq in Ev. subst v. apply negb_true_iff in X2.
      apply lookup_some in Eln. destruct Eln as (b & En). pose proof (name_kind s np nn i b I Onn En) as Kb. unfold replaced in Kd. assert (Eh : hit p n np nn = false). { destruct (hit_spec p n np nn) as [[E1 E2]|]; [|reflexivity]. subst. destruct (same_spec p n p n); [discriminate|tauto]. }
      rewrite Eh, En, Z.eqb_refl in Kd. destruct (getattr_kind s i b Kb) as (l & Gi). rewrite Gi in X1. subst b. cbn [andb orb] in Kd. congruence. }
    specialize (HN i DOTDOT). rewrite G, (no_dotdot nn i np Onn), (no_dotdot n i p On) in HN.
    destruct (Z.eqb_spec i fd) as [Ei|Ei].
    + subst fd. rewrite !cache_kind, K. destruct (kind s i) as [[|]|] eqn:Ks; [|reflexivity|reflexivity]. destruct (Z.eqb_spec i 1) as [->|]; [reflexivity|]. pose proof (name_parent s p n i I On Elf Ks) as Ep. rewrite Ep. f_equal. rewrite HN. destruct (getattr_kind s i true Ks) as (l & Gi). rewrite Gi. destruct (same_spec i DOTDOT i DOTDOT) as [_|X]; [|tauto]. destruct (Z.eqb_spec p np) as [->|]; [exact Ep|reflexivity].
    + apply Same. intros _ _. rewrite HN. destruct (same_spec i DOTDOT fd DOTDOT) as [[X _]|_]; [contradiction|]. rewrite andb_false_r. reflexivity.
  - apply Same. intros _ _. apply HN.
  - destruct (NM e eq_refl).
Qed.
Lemma next_step s o r s' : Did s o r s' -> (forall e, o <> Mount e) -> nexto s <= nexto s'.
Proof. intros D NM. pose proof (did_next _ _ _ _ _ _ D) as X. destruct o as [p n|p n|p c n|p n a|p n|p fd n np newino nn|c|e]; try lia; try (destruct X; lia). destruct (NM e eq_refl). Qed.

(** the file cache after an operation: a renamed directory has a new parent *)
Definition moved (f : Z -> option fdata) (o : op) (r : result) : Z -> option fdata :=
  match o, r with
  | Rename p fd n np _ _, ROk _ => match f fd with Some d => upd f fd (Some (reparent d np)) | None => f end
  | _, _ => f
  end.
Lemma files_step s f k o r s' : hash DOT <> hash DOTDOT -> Inv s -> legal s o -> Did s o r s' -> (forall e, o <> Mount e) -> Files s f k -> Files s' (moved f o r) k.
Proof.
  intros Hh I L D NM F. pose proof (next_step _ _ _ _ D NM) as Nx.
  assert (Mv : forall i, moved f o r i = match f i with
      | Some d => Some (match o, r with Rename p fd n np _ _, ROk _ => if i =? fd then reparent d np else d | _, _ => d end)
      | None => None end).
  { intros i. unfold moved. destruct o as [p n|p n|p c n|p n a|p n|p fd n np newino nn|c|e]; try (destruct (f i); reflexivity). destruct r as [j|]; [|destruct (f i); reflexivity]. destruct (f fd) as [d|] eqn:E.
    - unfold upd. destruct (Z.eqb_spec i fd) as [->|]; [now rewrite E|destruct (f i); reflexivity].
    - destruct (Z.eqb_spec i fd) as [->|]; [now rewrite E|destruct (f i); reflexivity]. }
  constructor.
  - apply (fl_pos _ _ _ F).
  - destruct (fl_root _ _ _ F) as (c & E & Hc). exists c. split; [|exact Hc]. rewrite Mv, E. f_equal. destruct o as [p n|p n|p c' n|p n a|p n|p fd n np newino nn|c'|e]; try reflexivity. destruct r as [j|]; [|reflexivity]. destruct (1 =? fd); reflexivity.
  - intros i Hi. pose proof (fl_file _ _ _ F i Hi) as X. rewrite Mv. destruct (f i) as [d|]; [|exact X]. destruct X as (X1 & X2 & X3 & X4).
    assert (Ec : kind s' i <> None -> cache s' i = cached_after s o r i) by (intros Ki; exact (cache_step s o r s' i Hh I L D NM X3 Ki)).
    assert (Ex : kind s' i <> None -> cache s i = Some (f_parent d)) by (intros Ki; apply X4; rewrite <- (kind_step s o r s' i D NM X3 Ki); exact Ki).
    assert (Std : cached_after s o r i = cache s i -> 0 < f_count d /\ f_count d = held k i /\ i < nexto s' /\ (kind s' i <> None -> cache s' i = Some (f_parent d))).
    { intros E. split; [exact X1|]. split; [exact X2|]. split; [lia|]. intros Ki. rewrite (Ec Ki), E. auto. }
    destruct o as [p n|p n|p c n|p n a|p n|p fd n np newino nn|c|e]; try (apply Std; reflexivity). destruct r as [j|]; [|apply Std; reflexivity]. cbn [cached_after] in *. destruct (i =? fd) eqn:Ei; [|apply Std; reflexivity].
    cbn [reparent f_count f_parent]. split; [exact X1|]. split; [exact X2|]. split; [lia|]. intros Ki. rewrite (Ec Ki), (Ex Ki). destruct (f_parent d); reflexivity.
  - intros i Hh' Hd Kf. pose proof (fl_dir _ _ _ F i Hh' Hd) as X. destruct (Z.eq_dec i 1) as [->|Hi]; [rewrite (root_kind s' (did_inv _ _ _ _ _ _ D)) in Kf; discriminate|]. pose proof (fl_file _ _ _ F i Hi) as Y. destruct (f i) as [d|]; [|lia]. apply X. rewrite <- Kf. symmetry. apply (kind_step s o r s' i D NM); [tauto|congruence].
Qed.

Lemma dot_step s o r s' p : Did s o r s' -> (forall e, o <> Mount e) -> p < nexto s /\ kind s p <> Some false -> p < nexto s' /\ kind s' p <> Some false.
Proof.
  intros D NM [A B]. pose proof (next_step _ _ _ _ D NM). split; [lia|]. intros K. apply B. rewrite <- K. symmetry. apply (kind_step s o r s' p D NM A). congruence.
Qed.
(** the name cache after an operation that changes names as [g] says *)
Lemma known_step s nm k o r s' nm' k' : Did s o r s' -> (forall e, o <> Mount e) -> Known s nm k ->
  (forall p n i, nm' p n = Some i -> ordinary n -> lookup s' p n = Some i) ->
  (forall p, nm' p DOTDOT = nm p DOTDOT) -> (forall p, nm' p DOT = nm p DOT) ->
  (forall p n, seen k' p n = true -> nm' p n <> None) -> Known s' nm' k'.
Proof.
  intros D NM Kn H1 H2 H3 H4. constructor; [exact H1|intros p; rewrite H2; apply (kn_dotdot _ _ _ Kn)| |exact H4].
  intros p i E. rewrite H3 in E. destruct (kn_dot _ _ _ Kn p i E) as (A & B). split; [exact A|]. exact (dot_step s o r s' p D NM B).
Qed.
Lemma files_ext s f k k' : (forall i, held k' i = held k i) -> (forall i, kdir k' i = kdir k i) -> Files s f k -> Files s f k'.
Proof.
  intros H1 H2 F. constructor.
  - intros i. rewrite H1. apply (fl_pos _ _ _ F).
  - apply (fl_root _ _ _ F).
  - intros i Hi. rewrite H1. exact (fl_file _ _ _ F i Hi).
  - intros i. rewrite H1, H2. apply (fl_dir _ _ _ F).
Qed.
Lemma FI_op x k o r s' nm' k' : hash DOT <> hash DOTDOT -> FI x k -> legal (base x) o -> checked hash (base x) o -> honest hash (base x) (open k) o -> lucky39 (base x) (open k) o ->
  Did (base x) o r s' -> match o with Create _ _ | Inactive _ | Mount _ => False | _ => True end ->
  (forall i, held k' i = held k i) -> (forall i, kdir k' i = kdir k i) ->
  (forall p n i, nm' p n = Some i -> ordinary n -> lookup s' p n = Some i) ->
  (forall p, nm' p DOTDOT = names x p DOTDOT) -> (forall p, nm' p DOT = names x p DOT) ->
  (forall p n, seen k' p n = true -> nm' p n <> None) -> FI (FFs s' (moved (files x) o r) nm') k'.
Proof.
  intros Hh [I T F Kn O] L C Hn Lk D Ho E1 E2 H1 H2 H3 H4. assert (NM : forall e, o <> Mount e) by (intros e ->; exact Ho).
  constructor; cbn [base files names].
  - exact (did_inv _ _ _ _ _ _ D).
  - exact (tree_step hash dhash _ o r s' Hh I T L C D).
  - apply (files_ext s' _ k k' E1 E2). now apply files_step with (s := base x).
  - now apply known_step with (1 := D) (nm := names x) (k := k).
  - pose proof (step39 hash dhash _ _ o r s' Hh I O L Hn Lk D) as X. revert X. apply open_ext. intros i. unfold open. rewrite E1, E2. destruct o; try contradiction; reflexivity.
Qed.

Notation fstep := (fstep hash dhash).
Definition answered (x : ffs) (k : kernel) (q : req) : Prop :=
  exists fuel r x', fstep fuel x q = Some (r, x') /\ right (base x) q r (base x') /\ FI x' (told k q r).
Lemma unchanged_refl s : unchanged s s. Proof. split; reflexivity. Qed.

Lemma step_getattr x k i : FI x k -> sensible k (base x) (Getattr i) -> answered x k (Getattr i).
Proof.
  intros H S. destruct (handle_held x k i H S) as (d & _ & E). exists O. do 2 eexists. cbn [Fuse_Model.fstep]. rewrite E. split; [reflexivity|]. split; [split; [apply unchanged_refl|apply attr_getattr]|]. unfold attr. destruct (inodes (base x) i); exact H.
Qed.

Lemma ordinary_dec n : n <> DOTDOT -> n = DOT \/ ordinary n.
Proof. intros H. destruct (name_eqb n DOT) eqn:E; [left; now apply name_eqb_spec|right]. split; [|exact H]. intros ->. rewrite (proj2 (name_eqb_spec DOT DOT) eq_refl) in E. discriminate. Qed.
Lemma attr_kind s i b : kind s i = Some b -> exists l, getattr s i = Some (b, l) /\ attr s i = Entry i b l.
Proof. intros K. destruct (getattr_kind s i b K) as (l & G). exists l. split; [exact G|]. rewrite attr_getattr, G. reflexivity. Qed.

Lemma fs_lookup_ok s gp p pd n : Inv s -> n <> DOTDOT ->
  fs_lookup hash s gp p pd n = Some (match N s p n with Some (i, b) => inl (i, FData 1 (if b then (if name_eqb n DOT then f_parent pd else Some p) else None)) | None => inr ENOENT end).
Proof.
  intros I Nd. unfold fs_lookup. rewrite (dir_get_N s p n I). assert (Ed : name_eqb n DOTDOT = false) by (apply not_true_iff_false; intros X; apply name_eqb_spec in X; contradiction). rewrite Ed. destruct (name_eqb n DOT); destruct (N s p n) as [[i b]|]; reflexivity.
Qed.

Lemma step_lookup x k p n : FI x k -> sensible k (base x) (Lookup p n) -> answered x k (Lookup p n).
Proof.
  intros H (Hp & Nd). pose proof (fi_inv _ _ H) as I. destruct (handle_held x k p H Hp) as (pd & Ep & Eh). exists O. cbn [Fuse_Model.fstep]. unfold fuse_lookup, lookup_begin. rewrite Ep, Eh.
  assert (Eg : exists gp, match f_parent pd with Some g => handle_opt x g | None => Some None end = Some gp) by (destruct (f_parent pd) as [g|]; [rewrite (handle_opt_files x k g H)|]; eauto). destruct Eg as (gp & ->).
  assert (Cd : forall b, kind (base x) p = Some b -> exists par, cache (base x) p = Some par /\ bump (files x) p par = upd (files x) p (Some (FData (f_count pd + 1) (f_parent pd)))).
  { intros b K. exists (if b then (if p =? 1 then None else lookup (base x) p DOTDOT) else None). split; [rewrite cache_kind, K; destruct b; reflexivity|]. unfold bump. now rewrite Ep. }
  destruct (names x p n) as [i|] eqn:En.
  - rewrite (handle_opt_files x k i H). destruct (ordinary_dec n Nd) as [->|On].
    + (* "." is cached *)
      destruct (kn_dot _ _ _ (fi_known _ _ H) p i En) as (-> & Pn & Kp). rewrite Ep. cbn [lookup_end]. destruct (kind (base x) p) as [b|] eqn:K.
      * assert (b = true) by (destruct b; congruence). subst b. destruct (attr_kind _ _ _ K) as (l & G & ->). rewrite Ep. do 2 eexists. split; [reflexivity|]. cbn [set_file base right told]. split.
        -- split; [apply unchanged_refl|]. assert (El : lookup (base x) p DOT = Some p) by (apply lookup_some; exists true; now apply dot_lookup). rewrite El. eauto.
        -- destruct (Cd true eq_refl) as (par & Ec & Eb). pose proof (FI_take x k p DOT p true par H K Ec ltac:(congruence)) as X. rewrite Eb in X. exact X.
      * rewrite attr_getattr, (getattr_none _ _ K). do 2 eexists. split; [reflexivity|]. split; [|exact H]. cbn [right]. split; [apply unchanged_refl|]. destruct (lookup (base x) p DOT) as [j|] eqn:El; [|reflexivity]. exfalso. apply lookup_some in El. destruct El as (b & El). pose proof (N_dir _ _ _ _ I El). congruence.
    + pose proof (kn_name _ _ _ (fi_known _ _ H) p n i En On) as El. destruct (lookup_kind _ p n i I On El) as (b & EN & K). destruct (attr_kind _ _ _ K) as (l & G & Ea). pose proof (cache_of_name _ p n i b I On El K) as Ec.
      pose proof (FI_take x k p n i b _ H K Ec ltac:(congruence)) as X. unfold bump in X. destruct (files x i) as [d|] eqn:Ef; cbn [lookup_end].
      * rewrite Ea, Ef. do 2 eexists. split; [reflexivity|]. cbn [set_file base right told]. rewrite El. split; [split; [apply unchanged_refl|eauto]|exact X].
      * rewrite (fs_lookup_ok _ gp p pd n I Nd), EN. assert (Ed : name_eqb n DOT = false) by (apply not_true_iff_false; intros Y; apply name_eqb_spec in Y; now apply (proj1 On)). rewrite Ed, Ea, Ef. do 2 eexists. split; [reflexivity|]. cbn [set_file base right told]. rewrite El. split; [split; [apply unchanged_refl|eauto]|exact X].
  - cbn [lookup_end]. rewrite (fs_lookup_ok _ gp p pd n I Nd). destruct (N (base x) p n) as [[i b]|] eqn:EN.
    2:{ do 2 eexists. split; [reflexivity|]. split; [|exact H]. cbn [right]. split; [apply unchanged_refl|]. rewrite (proj2 (lookup_none hash _ p n) EN). reflexivity. }
    assert (El : lookup (base x) p n = Some i) by (apply lookup_some; eauto).
    destruct (ordinary_dec n Nd) as [->|On].
    + pose proof (N_dir _ _ _ _ I EN) as K. rewrite (dot_lookup _ p I K) in EN. injection EN as <- <-. destruct (attr_kind _ _ _ K) as (l & G & Ea). unfold new_entry, cache_file. rewrite Ea, En. cbn [set_name files]. rewrite Ep. do 2 eexists. split; [reflexivity|]. cbn [set_file set_name base right told]. rewrite El. split; [split; [apply unchanged_refl|eauto]|].
      destruct (Cd true K) as (par & Ec & Eb). pose proof (FI_new x k p DOT p true par H K Ec Nd ltac:(auto)) as X. rewrite Eb in X. apply X. intros _. split; [reflexivity|]. split; [exact (kind_next _ _ _ I K)|congruence].
    + pose proof (name_kind _ p n i b I On EN) as K. destruct (attr_kind _ _ _ K) as (l & G & Ea). pose proof (cache_of_name _ p n i b I On El K) as Ec. assert (Ed : name_eqb n DOT = false) by (apply not_true_iff_false; intros Y; apply name_eqb_spec in Y; now apply (proj1 On)). rewrite Ed.
      unfold new_entry, cache_file. rewrite Ea, En. do 2 eexists. split; [reflexivity|]. cbn [set_file set_name base files names right told f_count f_parent]. rewrite El. split; [split; [apply unchanged_refl|eauto]|].
      assert (Hd : n = DOT -> i = p /\ p < nexto (base x) /\ kind (base x) p <> Some false) by (intros Y; now destruct (proj1 On)). exact (FI_new x k p n i b _ H K Ec Nd ltac:(auto) Hd).
Qed.

Lemma not_cached x k p n : FI x k -> ordinary n -> lookup (base x) p n = None -> names x p n = None.
Proof. intros H On E. destruct (names x p n) as [i|] eqn:En; [|reflexivity]. pose proof (kn_name _ _ _ (fi_known _ _ H) p n i En On). congruence. Qed.
Lemma dot_other n d p m : ordinary n -> m = DOT \/ m = DOTDOT -> same d m p n = false.
Proof. intros [N1 N2] Hm. destruct (same_spec d m p n) as [[_ <-]|]; [|reflexivity]. destruct Hm; congruence. Qed.

Lemma step_create x k p n (isdir : bool) : hash DOT <> hash DOTDOT -> FI x k -> holds k p -> legal (base x) (if isdir then Mkdir p n else Create p n) ->
  exists i l x', fuse_create hash dhash x p n isdir = Some (Entry i isdir l, x') /\ getattr (base x') i = Some (isdir, l) /\
    done (base x) (if isdir then Mkdir p n else Create p n) (ROk i) (base x') /\ FI x' (take (see k p n true) i isdir).
Proof.
  intros Hh H Hp L. set (o := if isdir then Mkdir p n else Create p n) in *. pose proof H as [I T F Kn O]. destruct (handle_held x k p H Hp) as (pd & Ep & Eh).
  assert (LL : directory (base x) p /\ ordinary n /\ lookup (base x) p n = None) by (unfold o in L; destruct isdir; exact L). destruct LL as (Dp & On & El). pose proof (not_cached x k p n H On El) as En.
  destruct (legal_step hash dhash (base x) o I L ltac:(unfold o; destruct isdir; exact Logic.I)) as (r & s' & E & D).
  assert (NM : forall e, o <> Mount e) by (unfold o; destruct isdir; discriminate).
  assert (R : r = ROk (nexto (base x)) /\ nexto s' = nexto (base x) + 1) by (pose proof (did_next _ _ _ _ _ _ D) as X; unfold o in X; destruct isdir; exact X). destruct R as [-> Nx]. set (i := nexto (base x)) in *.
  pose proof (did_inv _ _ _ _ _ _ D) as I'.
  assert (K : kind s' i = Some isdir) by (rewrite (did_kind _ _ _ _ _ _ D i); unfold o; destruct isdir; rewrite Z.eqb_refl; reflexivity).
  pose proof (did_names _ _ _ _ _ _ D) as HN. pose proof (did_out _ _ _ _ _ _ D Hh) as Ho.
  assert (El' : lookup s' p n = Some i) by (rewrite HN; unfold o; destruct isdir; cbn [expected]; destruct (same_spec p n p n); tauto).
  destruct (attr_kind _ _ _ K) as (l & G & Ea). pose proof (cache_of_name s' p n i isdir I' On El' K) as Ec.
  assert (Hi : i <> 1) by (pose proof (not_root s' p n i I' On El'); assumption).
  assert (Fi : files x i = None). { pose proof (fl_file _ _ _ F i Hi) as X. destruct (files x i) as [d|]; [|reflexivity]. unfold i in X. lia. }
  assert (Hi0 : held k i = 0) by (pose proof (fl_file _ _ _ F i Hi) as X; rewrite Fi in X; exact X).
  exists i, l. unfold fuse_create. rewrite Eh. fold o. rewrite E. unfold new_entry. cbn [set_base base]. rewrite Ea. unfold cache_file. cbn [set_base names]. rewrite En. cbn [set_name set_base files]. rewrite Fi. eexists. split; [reflexivity|]. cbn [set_file base]. split; [exact G|]. split; [split; [exact Ho|exact HN]|].
  assert (F' : Files s' (moved (files x) o (ROk i)) k) by (now apply files_step with (s := base x)). assert (Mv : moved (files x) o (ROk i) = files x) by (unfold o; destruct isdir; reflexivity). rewrite Mv in F'.
  assert (Kn' : Known s' (names x) k).
  { apply (known_step (base x) (names x) k o (ROk i) s' (names x) k D NM Kn); [|reflexivity|reflexivity|apply (kn_seen _ _ _ Kn)]. intros p' n' j E' On'. pose proof (kn_name _ _ _ Kn p' n' j E' On') as X. rewrite HN.
    assert (Ns : same p' n' p n = false). { destruct (same_spec p' n' p n) as [[-> ->]|]; [congruence|reflexivity]. }
    unfold o. destruct isdir; cbn [expected]; rewrite Ns; [|exact X]. destruct (Z.eqb_spec p' i) as [Ei|]; [|exact X]. exfalso. destruct (lookup_dir hash dhash _ p' n' j I X) as (c & Gc). unfold o in Ho. cbn [outcome] in Ho. congruence. }
  assert (O' : Open39 s' (opens (open k) o (ROk i))) by (apply (step39 hash dhash (base x) (open k) o (ROk i) s' Hh I O L); [unfold o; destruct isdir; exact Logic.I|unfold o; destruct isdir; exact Logic.I|exact D]).
  constructor; cbn [set_file set_name set_base base files names].
  - exact I'.
  - apply (tree_step hash dhash (base x) o (ROk i) s' Hh I T L); [unfold o; destruct isdir; exact Logic.I|exact D].
  - pose proof (files_take s' (files x) k p n true i isdir _ I' F' K Ec) as X. unfold bump in X. rewrite Fi in X. exact X.
  - apply known_more; [exact Kn'|apply On|auto|]. intros ->. now destruct (proj1 On).
  - revert O'. apply open_ext. intros j. unfold open at 2. cbn [held kdir take see]. unfold o. destruct isdir; cbn [opens].
    + destruct (Z.eqb_spec j i) as [->|]; [|reflexivity]. unfold open. rewrite Hi0. reflexivity.
    + unfold upd. destruct (Z.eqb_spec j i) as [->|]; [|reflexivity]. rewrite Hi0. reflexivity.
Qed.
Lemma step_mkfile x k p n : hash DOT <> hash DOTDOT -> FI x k -> sensible k (base x) (MkFile p n) -> answered x k (MkFile p n).
Proof.
  intros Hh H (Hp & L). destruct (step_create x k p n false Hh H Hp L) as (i & l & x' & E & G & D & H'). exists O, (Entry i false l), x'. split; [exact E|]. split; [exists i, l; auto|exact H'].
Qed.
Lemma step_mkdir x k p n : hash DOT <> hash DOTDOT -> FI x k -> sensible k (base x) (MkDir p n) -> answered x k (MkDir p n).
Proof.
  intros Hh H (Hp & L). destruct (step_create x k p n true Hh H Hp L) as (i & l & x' & E & G & D & H'). exists O, (Entry i true l), x'. split; [exact E|]. split; [exists i, l; auto|exact H'].
Qed.

Lemma step_link x k i p n : hash DOT <> hash DOTDOT -> FI x k -> sensible k (base x) (MkLink i p n) -> answered x k (MkLink i p n).
Proof.
  intros Hh H (Hp & Hi & L & Lk). pose proof H as [I T F Kn O]. destruct (handle_held x k p H Hp) as (pd & Ep & Eh). destruct (handle_held x k i H Hi) as (d & Ei & Ehi). destruct (legal_step hash dhash (base x) (Link p i n) I L Lk) as (r & s' & E & D).
  pose proof (did_names _ _ _ _ _ _ D) as HN. pose proof (did_out _ _ _ _ _ _ D Hh) as Ho. destruct r as [j|e]; [|destruct Ho]. cbn [outcome] in Ho. subst j. pose proof L as (Dp & On & (c & Gc & _) & El).
  assert (K : kind s' i = Some false). { rewrite (did_kind _ _ _ _ _ _ D i). apply plain_kind. exists c. exact Gc. } destruct (attr_kind _ _ _ K) as (l & G & Ea).
  pose proof (not_cached x k p n H On El) as En.
  exists 0%nat. do 2 eexists. cbn [Fuse_Model.fstep]. unfold fuse_link. rewrite Eh, Ehi, E, Ea, En. split; [reflexivity|]. cbn [set_name set_base base right told]. split; [exists l; repeat split; auto|].
  refine (FI_op x k (Link p i n) (ROk i) s' _ (see k p n true) Hh H L Logic.I Logic.I Logic.I D Logic.I (fun _ => eq_refl) (fun _ => eq_refl) _ _ _ _).
  - intros p' n' j E' On'. cbn [set_base names] in E'. fold (same p' n' p n) in E'. rewrite HN. cbn [expected]. destruct (same p' n' p n); [exact E'|exact (kn_name _ _ _ Kn p' n' j E' On')].
  - intros p'. cbn [set_base names]. fold (same p' DOTDOT p n). rewrite (dot_other n p' p DOTDOT On (or_intror eq_refl)). reflexivity.
  - intros p'. cbn [set_base names]. fold (same p' DOT p n). rewrite (dot_other n p' p DOT On (or_introl eq_refl)). reflexivity.
  - intros p' n' E'. cbn [set_base names see seen] in *. fold (same p' n' p n). destruct (same p' n' p n); [discriminate|exact (kn_seen _ _ _ Kn p' n' E')].
Qed.

(** removing a name from the name cache *)
Lemma removed x k p n o r s' : Known (base x) (names x) k -> ordinary n -> Did (base x) o r s' ->
  (forall d m i, ordinary m -> same d m p n = false -> lookup (base x) d m = Some i -> lookup s' d m = Some i) ->
  (forall p' n' i, (if (p' =? p) && name_eqb n' n then None else names x p' n') = Some i -> ordinary n' -> lookup s' p' n' = Some i) /\
  (forall p', (if (p' =? p) && name_eqb DOTDOT n then None else names x p' DOTDOT) = names x p' DOTDOT) /\
  (forall p', (if (p' =? p) && name_eqb DOT n then None else names x p' DOT) = names x p' DOT) /\
  (forall p' n', seen (see k p n false) p' n' = true -> (if (p' =? p) && name_eqb n' n then None else names x p' n') <> None).
Proof.
  intros Kn On D HN. split; [|split; [|split]].
  - intros p' n' i E On'. fold (same p' n' p n) in E. destruct (same p' n' p n) eqn:Es; [discriminate|]. exact (HN p' n' i On' Es (kn_name _ _ _ Kn p' n' i E On')).
  - intros p'. fold (same p' DOTDOT p n). rewrite (dot_other n p' p DOTDOT On (or_intror eq_refl)). reflexivity.
  - intros p'. fold (same p' DOT p n). rewrite (dot_other n p' p DOT On (or_introl eq_refl)). reflexivity.
  - intros p' n' E. cbn [see seen] in E. fold (same p' n' p n). destruct (same p' n' p n); [discriminate|exact (kn_seen _ _ _ Kn p' n' E)].
Qed.

Lemma step_remove x k p n : hash DOT <> hash DOTDOT -> FI x k -> sensible k (base x) (Remove p n) -> answered x k (Remove p n).
Proof.
  intros Hh H (Hp & L & Lk & Hs). pose proof H as [I T F Kn O]. destruct (handle_held x k p H Hp) as (pd & Ep & Eh). pose proof L as (Dp & On & Pl).
  exists 0%nat. cbn [Fuse_Model.fstep]. unfold fuse_unlink. rewrite Eh.
  set (fd := match names x p n with Some i => files x i | None => None end).
  assert (Efd : match names x p n with Some i => handle_opt x i | None => Some None end = Some fd) by (unfold fd; destruct (names x p n) as [i|]; [apply (handle_opt_files x k i H)|reflexivity]). rewrite Efd.
  set (a := match fd with Some _ => true | None => false end).
  assert (La : legal (base x) (Unlink p n a)) by exact L.
  assert (Lka : lucky (base x) (Unlink p n a)) by (intros i Ei _; exact (Lk i Ei eq_refl)).
  assert (Ha : honest hash (base x) (open k) (Unlink p n a)).
  { intros i Ei. pose proof (not_root _ p n i I On Ei) as Hi. pose proof (fl_file _ _ _ F i Hi) as X. pose proof (proj1 (plain_kind _ i) (Pl i Ei)) as Ki. unfold open. destruct (Z.ltb_spec 0 (held k i)) as [Hg|Hg].
    - assert (Kd : kdir k i = false). { destruct (kdir k i) eqn:Kd; [|reflexivity]. destruct (fl_dir _ _ _ F i Hg Kd Ki). } rewrite Kd. cbn. specialize (kn_seen _ _ _ Kn p n (Hs i Ei Hg)) as Y. unfold a, fd. destruct (names x p n) as [j|] eqn:En; [|congruence]. pose proof (kn_name _ _ _ Kn p n j En On). assert (j = i) by congruence. subst j. destruct (files x i); [reflexivity|lia].
    - cbn. unfold a, fd. destruct (names x p n) as [j|] eqn:En; [|reflexivity]. pose proof (kn_name _ _ _ Kn p n j En On). assert (j = i) by congruence. subst j. destruct (files x i) as [d|]; [lia|reflexivity]. }
  destruct (legal_step hash dhash (base x) (Unlink p n a) I La Lka) as (r & s' & E & D). rewrite E. pose proof (did_names _ _ _ _ _ _ D) as HN. pose proof (did_out _ _ _ _ _ _ D Hh) as Ho. destruct r as [i|e].
  - cbn [outcome] in Ho. do 2 eexists. split; [reflexivity|]. cbn [set_name set_base base right told]. rewrite Ho. split; [repeat split; [exact Ho|exact HN]|].
    destruct (removed x k p n _ _ s' Kn On D) as (R1 & R2 & R3 & R4). { intros d m j Om Es Ej. rewrite HN. cbn [expected]. rewrite Es. exact Ej. }
    exact (FI_op x k (Unlink p n a) (ROk i) s' _ (see k p n false) Hh H La Logic.I Ha Logic.I D Logic.I (fun _ => eq_refl) (fun _ => eq_refl) R1 R2 R3 R4).
  - cbn [outcome] in Ho. destruct Ho as [-> Ho]. do 2 eexists. split; [reflexivity|]. cbn [set_base base right told]. rewrite Ho. split; [split; [reflexivity|intros d m; rewrite HN; reflexivity]|].
    refine (FI_op x k (Unlink p n a) (RErr ENOENT) s' (names x) k Hh H La Logic.I Ha Logic.I D Logic.I (fun _ => eq_refl) (fun _ => eq_refl) _ (fun _ => eq_refl) (fun _ => eq_refl) (kn_seen _ _ _ Kn)). intros p' n' j E' On'. rewrite HN. exact (kn_name _ _ _ Kn p' n' j E' On').
Qed.

Lemma step_rmdir x k p n : hash DOT <> hash DOTDOT -> FI x k -> sensible k (base x) (RmDir p n) -> answered x k (RmDir p n).
Proof.
  intros Hh H (Hp & L). pose proof H as [I T F Kn O]. destruct (handle_held x k p H Hp) as (pd & Ep & Eh). pose proof L as (Dp & On & Pl).
  exists 0%nat. cbn [Fuse_Model.fstep]. unfold fuse_rmdir. rewrite Eh. destruct (legal_step hash dhash (base x) (Rmdir p n) I L Logic.I) as (r & s' & E & D). rewrite E. pose proof (did_names _ _ _ _ _ _ D) as HN. pose proof (did_out _ _ _ _ _ _ D Hh) as Ho. destruct r as [i|e].
  - do 2 eexists. split; [reflexivity|]. cbn [set_name set_base base right told]. split; [left; exists i; repeat split; [apply Ho|apply Ho|exact HN]|].
    destruct (removed x k p n _ _ s' Kn On D) as (R1 & R2 & R3 & R4). { intros d m j Om Es Ej. rewrite HN. cbn [expected]. rewrite Es, orb_false_r. destruct (Z.eqb_spec d i) as [->|]; [|exact Ej]. exfalso. destruct Ho as [_ Ho]. destruct (Ho m j Ej) as [X|X]; [now apply (proj1 Om)|now apply (proj2 Om)]. }
    exact (FI_op x k (Rmdir p n) (ROk i) s' _ (see k p n false) Hh H L Logic.I Logic.I Logic.I D Logic.I (fun _ => eq_refl) (fun _ => eq_refl) R1 R2 R3 R4).
  - do 2 eexists. split; [reflexivity|]. cbn [set_base base right told]. split; [right; exists e; repeat split; [exact Ho|exact HN]|].
    refine (FI_op x k (Rmdir p n) (RErr e) s' (names x) k Hh H L Logic.I Logic.I Logic.I D Logic.I (fun _ => eq_refl) (fun _ => eq_refl) _ (fun _ => eq_refl) (fun _ => eq_refl) (kn_seen _ _ _ Kn)). intros p' n' j E' On'. rewrite HN. exact (kn_name _ _ _ Kn p' n' j E' On').
Qed.

Lemma step_forget x k i c : hash DOT <> hash DOTDOT -> FI x k -> sensible k (base x) (Forget i c) -> answered x k (Forget i c).
Proof.
  intros Hh H S. pose proof H as [I T F Kn O]. exists 0%nat. cbn [Fuse_Model.fstep]. unfold fuse_forget. destruct (Z.eqb_spec i 1) as [E1|Hi].
  - do 2 eexists. split; [reflexivity|]. cbn [right told]. rewrite (proj2 (Z.eqb_eq i 1) E1). split; [split; reflexivity|exact H].
  - destruct S as [|(Hg & -> & Lk)]; [contradiction|]. pose proof (fl_file _ _ _ F i Hi) as X. destruct (files x i) as [d|] eqn:Ei; [|lia]. destruct X as (_ & X & _). rewrite X, Z.eqb_refl.
    destruct (legal_step hash dhash (base x) (Inactive i) I Logic.I Lk) as (r & s' & E & D). cbn [Names_Model.step] in E. rewrite E. pose proof (did_names _ _ _ _ _ _ D) as HN.
    assert (HL : forall a b, lookup s' a b = lookup (base x) a b) by (intros a b; rewrite HN; destruct r; reflexivity).
    do 2 eexists. split; [reflexivity|]. cbn [set_base set_file base right told]. destruct (Z.eqb_spec i 1); [contradiction|]. split; [split; [reflexivity|exact HL]|].
    assert (NM : forall e, Inactive i <> Mount e) by discriminate.
    constructor; cbn [set_base set_file base files names].
    + exact (did_inv _ _ _ _ _ _ D).
    + exact (tree_step hash dhash _ (Inactive i) r s' Hh I T Logic.I Logic.I D).
    + pose proof (files_step _ _ k (Inactive i) r s' Hh I Logic.I D NM F) as F'. cbn [moved] in F'. constructor; cbn [held kdir drop_file].
      * intros j. destruct (j =? i); [lia|apply (fl_pos _ _ _ F')].
      * unfold upd. destruct (Z.eqb_spec 1 i); [lia|]. apply (fl_root _ _ _ F').
      * intros j Hj. unfold upd. destruct (Z.eqb_spec j i); [reflexivity|exact (fl_file _ _ _ F' j Hj)].
      * intros j. destruct (j =? i); [lia|apply (fl_dir _ _ _ F')].
    + apply (known_step _ (names x) k _ r s' (names x) _ D NM Kn); [|reflexivity|reflexivity|apply (kn_seen _ _ _ Kn)]. intros p' n' j E' On'. rewrite HL. exact (kn_name _ _ _ Kn p' n' j E' On').
    + pose proof (step39 hash dhash _ _ (Inactive i) r s' Hh I O Logic.I Logic.I Logic.I D) as X'. revert X'. apply open_ext. intros j. cbn [opens]. unfold upd, open. cbn [held kdir drop_file]. destruct (j =? i); reflexivity.
Qed.

Lemma step_move x k p n np nn : hash DOT <> hash DOTDOT -> FI x k -> sensible k (base x) (Move p n np nn) -> answered x k (Move p n np nn).
Proof.
  intros Hh H (Hp & Hnp & Ha & Sp & On & Ne & Snp & Hfd). pose proof H as [I T F Kn O]. destruct (handle_held x k p H Hp) as (pd & Ep & Eh). destruct (handle_held x k np H Hnp) as (npd & Enp & Ehn).
  pose proof (kn_seen _ _ _ Kn p n Sp) as Nn. destruct (names x p n) as [fd|] eqn:En; [|congruence]. clear Nn. pose proof (kn_name _ _ _ Kn p n fd En On) as El. destruct (Hfd fd El) as (Hf & Nf & L & Lk). destruct (handle_held x k fd H Hf) as (fdd & Ef & Ehf). pose proof L as (Dp & Dnp & Onn & _).
  assert (Enn : names x np nn = lookup (base x) np nn).
  { destruct (lookup (base x) np nn) as [v|] eqn:Ev; [|exact (not_cached x k np nn H Onn Ev)]. pose proof (kn_seen _ _ _ Kn np nn (Snp ltac:(discriminate))) as Y. destruct (names x np nn) as [w|] eqn:Ew; [|congruence]. rewrite <- Ev. symmetry. exact (kn_name _ _ _ Kn np nn w Ew Onn). }
  assert (Cf : forall a, a = np \/ above (base x) np a -> option_map f_parent (files x a) = cache (base x) a).
  { intros a Aa. assert (Da : directory (base x) a) by (destruct Aa as [->|Aa]; [exact Dnp|exact (above_dir hash dhash _ np a I Aa)]). assert (Hla : holds k a) by (destruct Aa as [->|Aa]; auto). destruct (Z.eq_dec a 1) as [->|Ha1].
    - destruct (fl_root _ _ _ F) as (c & E & _). rewrite E, (cache_root hash dhash _ I). reflexivity.
    - pose proof (fl_file _ _ _ F a Ha1) as X. destruct Hla as [|Hla]; [contradiction|]. destruct (files x a) as [d|]; [|lia]. cbn. destruct X as (_ & _ & _ & X). rewrite X; [reflexivity|]. apply dir_kind in Da. congruence. }
  destruct (dirloop_spec hash dhash (base x) _ fd I np (T np Dnp) Cf) as (fuel & v & Ev & Hv).
  exists fuel. cbn [Fuse_Model.fstep]. unfold fuse_rename. rewrite En, Eh, Ehn, Ehf, Ev. destruct v.
  - do 2 eexists. split; [reflexivity|]. cbn [right told]. split; [|exact H]. exists fd. split; [exact El|]. split; [intros _; split; [reflexivity|apply unchanged_refl]|]. intros X. destruct (X (proj1 Hv eq_refl)).
  - assert (NA : ~ above (base x) np fd) by (intros A; apply Hv in A; discriminate). rewrite Enn. set (o := Rename p fd n np (lookup (base x) np nn) nn) in *.
    assert (Ck : checked hash (base x) o).
    { intros Df. split; [exact Nf|]. destruct (dirloop_spec hash dhash (base x) (cache (base x)) fd I np (T np Dnp) (fun _ _ => eq_refl)) as (f' & v' & Ev' & Hv'). exists f'. rewrite Ev'. destruct v'; [|reflexivity]. destruct (NA (proj1 Hv' eq_refl)). }
    assert (L39 : lucky39 (base x) (open k) o). { intros _ w Ew Gw. unfold open. rewrite (Lk w Ew Gw). reflexivity. }
    destruct (legal_step hash dhash (base x) o I L Logic.I) as (r & s' & E & D). rewrite E. pose proof (did_names _ _ _ _ _ _ D) as HN. pose proof (did_out _ _ _ _ _ _ D Hh) as Ho. destruct r as [i|e].
    + assert (i = fd) by apply Ho. subst i. rewrite Z.eqb_refl. cbn [set_name set_base names]. fold (same p n np nn). assert (Es : same p n np nn = false) by (destruct (same_spec p n np nn) as [[-> ->]|]; [contradiction|reflexivity]). rewrite Es, En, Z.eqb_refl. cbn [set_name set_base files]. rewrite Ef.
      do 2 eexists. split; [reflexivity|]. cbn [set_file set_name set_base base right told]. split; [exists fd; split; [exact El|]; split; [intros A; destruct (NA A)|]; intros _; left; split; [reflexivity|]; split; [exact Ho|exact HN]|].
      assert (Mv : moved (files x) o (ROk fd) = upd (files x) fd (Some (reparent fdd np))) by (unfold o; cbn [moved]; rewrite Ef; reflexivity). unfold set_file, set_name, set_base. cbn [base files names]. rewrite <- Mv.
      refine (FI_op x k o (ROk fd) s' _ (see (see k p n false) np nn true) Hh H L Ck Logic.I L39 D Logic.I (fun _ => eq_refl) (fun _ => eq_refl) _ _ _ _).
      * intros p' n' j E' On'. fold (same p' n' np nn) in E'. fold (same p' n' p n) in E'. rewrite HN. unfold o. cbn [expected]. cbn zeta.
        assert (G : forall w, lookup (base x) p' n' = Some w -> match lookup (base x) np nn with Some v => (match getattr (base x) v with Some (b, _) => b | None => false end) && negb (same p n np nn) && (p' =? v) | None => false end = false).
        { intros w Ew. destruct (lookup (base x) np nn) as [v|] eqn:Env; [|reflexivity]. apply not_true_iff_false. intros X. apply andb_true_iff in X. destruct X as [X Y]. apply andb_true_iff in X. destruct X as [X _]. apply Z.eqb_eq in Y. subst p'. destruct Ho as (_ & _ & Hem). destruct (Hem v n' w eq_refl) as [Z|Z]; [unfold directory; destruct (getattr (base x) v) as [[b c]|]; [subst b; eauto|discriminate]|exact Ew|now apply (proj1 On')|now apply (proj2 On')]. }
        destruct (same_spec p' n' np nn) as [[Ea Eb]|Hs].
        -- subst p' n'. assert (G' : match lookup (base x) np nn with Some v => (match getattr (base x) v with Some (b, _) => b | None => false end) && negb (same p n np nn) && (np =? v) | None => false end = false) by (destruct (lookup (base x) np nn) as [v|] eqn:Env; [exact (G v eq_refl)|reflexivity]). rewrite G'. exact E'.
        -- destruct (same_spec p' n' p n) as [|Hs']; [discriminate|]. pose proof (kn_name _ _ _ Kn p' n' j E' On') as Ej. rewrite (G j Ej). destruct (same_spec p' n' fd DOTDOT) as [[_ X]|_]; [now destruct (proj2 On')|]. rewrite andb_false_r. exact Ej.
      * intros p'. fold (same p' DOTDOT np nn). fold (same p' DOTDOT p n). rewrite (dot_other nn p' np DOTDOT Onn (or_intror eq_refl)), (dot_other n p' p DOTDOT On (or_intror eq_refl)). reflexivity.
      * intros p'. fold (same p' DOT np nn). fold (same p' DOT p n). rewrite (dot_other nn p' np DOT Onn (or_introl eq_refl)), (dot_other n p' p DOT On (or_introl eq_refl)). reflexivity.
      * intros p' n' E'. cbn [see seen] in E'. fold (same p' n' np nn). fold (same p' n' p n). destruct (same p' n' np nn); [discriminate|]. destruct (same p' n' p n); [discriminate|exact (kn_seen _ _ _ Kn p' n' E')].
    + do 2 eexists. split; [reflexivity|]. cbn [set_base base right told]. split; [exists fd; split; [exact El|]; split; [intros A; destruct (NA A)|]; intros _; right; exists e; split; [reflexivity|]; split; [exact Ho|exact HN]|].
      refine (FI_op x k o (RErr e) s' (names x) k Hh H L Ck Logic.I L39 D Logic.I (fun _ => eq_refl) (fun _ => eq_refl) _ (fun _ => eq_refl) (fun _ => eq_refl) (kn_seen _ _ _ Kn)). intros p' n' j E' On'. rewrite HN. exact (kn_name _ _ _ Kn p' n' j E' On').
Qed.

Lemma fuse_step x k q : hash DOT <> hash DOTDOT -> FI x k -> sensible k (base x) q -> answered x k q.
Proof.
  intros Hh H S. destruct q as [p n|p n|p n|i p n|p n|p n|p n np nn|i c|i].
  - now apply step_lookup. - now apply step_mkfile. - now apply step_mkdir. - now apply step_link. - now apply step_remove. - now apply step_rmdir. - now apply step_move. - now apply step_forget. - now apply step_getattr.
Qed.
Lemma fuse_follow : hash DOT <> hash DOTDOT -> forall l x k, FI x k -> follow x k l.
Proof.
  intros Hh. induction l as [|q l IH]; intros x k H; cbn [follow]; (split; [exact (FI_safe x k H)|]); [exact Logic.I|]. intros S. destruct (fuse_step x k q Hh H S) as (fuel & r & x' & E & R & H'). exists fuel, r, x'. auto.
Qed.
Lemma FI_boot s : Inv s -> (forall d, directory s d -> in_tree s d) -> (forall i, dead s i = false) -> FI (fuse_new s) boot.
Proof.
  intros I T Dd. constructor; cbn [fuse_new base files names]; auto.
  - constructor; cbn [held kdir boot]; try lia.
    + exists 1. split; [reflexivity|lia].
    + intros i Hi. unfold upd. destruct (Z.eqb_spec i 1); [contradiction|reflexivity].
  - constructor; cbn [seen boot]; congruence.
  - split; intros i; [discriminate|]. rewrite Dd. discriminate.
Qed.

Lemma run_snoc l : forall s o (P : fs -> op -> Prop), run_where hash dhash P s (l ++ [o]) ->
  run_where hash dhash P s l /\ forall rs s1, run hash dhash s l = Some (rs, s1) -> P s1 o /\ forall rs' s2, run hash dhash s (l ++ [o]) = Some (rs', s2) -> exists r, step hash dhash s1 o = Some (r, s2).
Proof.
  induction l as [|a l IH]; intros s o P L; cbn [app Names_Spec.run_where Names_Model.run] in *.
  - split; [exact Logic.I|]. intros rs s1 E. injection E as _ <-. split; [exact (proj1 L)|]. intros rs' s2 E. destruct (step hash dhash s o) as [[r s3]|]; [|discriminate]. injection E as _ <-. eauto.
  - destruct L as [L1 L2]. destruct (step hash dhash s a) as [[r s1]|]; [|split; [auto|discriminate]]. destruct (IH s1 o P L2) as [A B]. split; [auto|]. intros rs s2 E. destruct (run hash dhash s1 l) as [[xs s3]|]; [|discriminate]. injection E as _ <-. destruct (B xs s3 eq_refl) as [B1 B2]. split; [exact B1|]. intros rs' s4 E'. destruct (run hash dhash s1 (l ++ [o])) as [[ys s5]|]; [|discriminate]. injection E' as _ <-. exact (B2 _ _ eq_refl).
Qed.

(** Whatever was done to the file system before it was mounted: as long as the kernel's requests are handled one at a time and
    are sensible, no request panics, every request is answered as the file system should, every file the kernel holds exists,
    and a file without a name exists only while the kernel holds it. *)
Theorem C77_frontend_partial : hash DOT <> hash DOTDOT -> forall l0 early rs s,
  run_where hash dhash (fun s o => legal s o /\ lucky s o /\ checked hash s o) (new_fs hash) (l0 ++ [Mount early]) -> run hash dhash (new_fs hash) (l0 ++ [Mount early]) = Some (rs, s) ->
  forall l, follow (fuse_new s) boot l.
Proof.
  intros Hh l0 e rs s L R l. apply fuse_follow; [exact Hh|].
  destruct (tree_run hash dhash Hh _ _ (new_fs_inv hash dhash Hh) (tree_new hash Hh) L) as (rs' & s' & R' & I & T). rewrite R in R'. injection R' as _ <-. apply FI_boot; [exact I|exact T|].
  destruct (run_snoc l0 _ _ _ L) as [L1 L2]. destruct (tree_run hash dhash Hh l0 _ (new_fs_inv hash dhash Hh) (tree_new hash Hh) L1) as (rs1 & s1 & R1 & I1 & T1). destruct (L2 rs1 s1 R1) as [_ X]. destruct (X rs s R) as (r & E).
  destruct (legal_step hash dhash s1 (Mount e) I1 Logic.I Logic.I) as (r' & s2 & E2 & D). rewrite E in E2. injection E2 as <- <-. intros i. destruct (dead s i) eqn:Di; [|reflexivity]. exfalso. pose proof (dead_plain s i Di) as K. pose proof (did_kind _ _ _ _ _ _ D i) as Kd. cbn [Names_Model.step] in E. injection E as <- _. cbn in Kd. destruct (dead s1 i) eqn:D1; [congruence|].
  rewrite Kd in K. pose proof (did_names _ _ _ _ _ _ D) as HN. destruct (dead_facts hash dhash s i I Di) as (_ & R0 & _). pose proof (no_name hash dhash s i I R0) as NN.
  destruct (proj2 (plain_kind s1 i) K) as (c & G). pose proof (plain_refs hash dhash s1 i c I1 G) as Hc. destruct (Z.eq_dec c 0) as [->|Hc0]; [apply nameless_dead in G; congruence|]. pose proof (refs_nonneg s1 i) as Pos. destruct (one_name hash dhash s1 i I1 ltac:(lia)) as (d & m & Om & El). apply (NN d m Om). rewrite HN. exact El.
Qed.

(** ** "." and ".." *)
(** a history of sensible requests, handled one at a time *)
Inductive plays : ffs -> kernel -> list req -> ffs -> kernel -> Prop :=
| plays_nil x k : plays x k [] x k
| plays_cons x k q l fuel r x1 x' k' : sensible k (base x) q -> fstep fuel x q = Some (r, x1) -> plays x1 (told k q r) l x' k' -> plays x k (q :: l) x' k'.
Lemma fstep_fuel f1 f2 x q a b : fstep f1 x q = Some a -> fstep f2 x q = Some b -> a = b.
Proof.
  destruct q as [p n|p n|p n|i p n|p n|p n|p n np nn|i c|i]; cbn [Fuse_Model.fstep]; try congruence. unfold fuse_rename. destruct (names x p n) as [src|]; [|discriminate]. destruct (handle x p); [|discriminate]. destruct (handle x np); [|discriminate]. destruct (handle x src); [|discriminate].
  destruct (dirloop _ f1 src np) as [v1|] eqn:E1; [|discriminate]. destruct (dirloop _ f2 src np) as [v2|] eqn:E2; [|discriminate]. rewrite (dirloop_fuel _ _ _ _ _ _ _ E1 E2). congruence.
Qed.
Lemma plays_FI l x k x' k' : hash DOT <> hash DOTDOT -> plays x k l x' k' -> FI x k -> FI x' k'.
Proof.
  intros Hh P. induction P as [|x k q l fuel r x1 x' k' S E P IH]; [auto|]. intros H. apply IH. destruct (fuse_step x k q Hh H S) as (f' & r' & x2 & E' & _ & H'). pose proof (fstep_fuel _ _ _ _ _ _ E E') as X. injection X as -> ->. exact H'.
Qed.
Lemma FI_fresh : hash DOT <> hash DOTDOT -> FI (fuse_new (new_fs hash)) boot.
Proof.
  intros Hh. apply FI_boot; [exact (new_fs_inv hash dhash Hh)|exact (tree_new hash Hh)|]. intros i. apply not_true_iff_false. intros D. apply dead_spec in D. destruct D as (v & Ev & Dv & _). unfold new_fs in Ev. cbn in Ev. unfold upd in Ev. destruct (i =? 1); [injection Ev as <-; discriminate|discriminate].
Qed.
(** The first lookup of ".." in a directory gives its parent, if the kernel holds both: NFS does such lookups. *)
Theorem C78_dotdot_partial : hash DOT <> hash DOTDOT -> forall l x k p q, plays (fuse_new (new_fs hash)) boot l x k ->
  directory (base x) p -> p <> 1 -> holds k p -> lookup (base x) p DOTDOT = Some q -> holds k q ->
  exists c x', fstep 0 x (Lookup p DOTDOT) = Some (Entry q true c, x') /\ getattr (base x) q = Some (true, c) /\ base x' = base x.
Proof.
  intros Hh l x k p q P Dp P1 Hp Eq Hq. pose proof (plays_FI l _ _ x k Hh P (FI_fresh Hh)) as H. pose proof H as [I T F Kn O]. destruct (handle_held x k p H Hp) as (pd & Ep & Eh). destruct (handle_held x k q H Hq) as (qd & Ed & Ehq).
  assert (Epar : f_parent pd = Some q). { pose proof (fl_file _ _ _ F p P1) as X. rewrite Ep in X. destruct X as (_ & _ & _ & X). apply dir_kind in Dp. rewrite cache_kind, Dp in X. destruct (Z.eqb_spec p 1); [contradiction|]. assert (Y : Some (lookup (base x) p DOTDOT) = Some (f_parent pd)) by (apply X; discriminate). congruence. }
  destruct (parent hash dhash (base x) p I Dp P1) as (q' & n & On & El & Eq' & Dq). assert (q' = q) by congruence. subst q'. destruct (getattr_kind _ q true (proj1 (dir_kind _ q) Dq)) as (c & G).
  assert (EN : exists b, N (base x) p DOTDOT = Some (q, b)) by (apply lookup_some; exact Eq). destruct EN as (b & EN).
  cbn [Fuse_Model.fstep]. unfold fuse_lookup, lookup_begin. rewrite Ep, Eh, Epar, (handle_opt_files x k q H), Ed, (kn_dotdot _ _ _ Kn p). cbn [lookup_end]. unfold fs_lookup. rewrite (dir_get_N _ p DOTDOT I), EN. assert (Z1 : name_eqb DOTDOT DOT = false) by reflexivity. assert (Z2 : name_eqb DOTDOT DOTDOT = true) by reflexivity. rewrite Z1, Z2.
  unfold new_entry. rewrite attr_getattr, G. unfold cache_file. rewrite (kn_dotdot _ _ _ Kn p). exists c. eexists. split; [reflexivity|]. split; reflexivity.
Qed.
End Props.
Print Assumptions C77_frontend_partial.
Print Assumptions C78_dotdot_partial.

(** ** Checking a history by computation *)
Section Check.
Context (hash : name -> Z) (dhash : Z -> Z).
Definition holdsb (k : kernel) (i : Z) : bool := (i =? 1) || (0 <? held k i).
Lemma holdsb_ok k i : holdsb k i = true -> holds k i.
Proof. unfold holdsb, holds. intros H. apply orb_true_iff in H. destruct H as [H|H]; [left; now apply Z.eqb_eq|right; now apply Z.ltb_lt]. Qed.
Fixpoint climb (k : kernel) (s : fs) (fuel : nat) (d : Z) : bool :=
  (d =? 1) || match fuel, lookup hash s d DOTDOT with S f, Some q => holdsb k q && climb k s f q | _, _ => false end.
Lemma climb_ok k s fuel : forall d, climb k s fuel d = true -> forall a, above hash s d a -> holds k a.
Proof.
  induction fuel as [|f IH]; intros d H a A; cbn [climb] in H.
  - rewrite orb_false_r in H. apply Z.eqb_eq in H. inversion A; contradiction.
  - apply orb_true_iff in H. destruct H as [H|H]; [apply Z.eqb_eq in H; inversion A; contradiction|]. destruct (lookup hash s d DOTDOT) as [q|] eqn:E; [|discriminate]. apply andb_true_iff in H. destruct H as [H1 H2]. inversion A as [d' p' D N1 E' X Y|d' p' a' D N1 E' A' X Y]; subst.
    + assert (a = q) by congruence. subst. now apply holdsb_ok.
    + assert (p' = q) by congruence. subst. exact (IH q H2 a A').
Qed.
Definition sensibleb (k : kernel) (s : fs) (q : req) : bool :=
  match q with
  | Lookup p n => holdsb k p && negb (name_eqb n DOTDOT)
  | MkFile p n => holdsb k p && legalb hash s (Create p n)
  | MkDir p n => holdsb k p && legalb hash s (Mkdir p n)
  | MkLink i p n => holdsb k p && holdsb k i && legalb hash s (Link p i n) && luckyb hash s (Link p i n)
  | Remove p n => holdsb k p && legalb hash s (Unlink p n true) && match lookup hash s p n with Some i => (held k i <=? 0) || seen k p n | None => true end
  | RmDir p n => holdsb k p && legalb hash s (Rmdir p n)
  | Move p n np nn => holdsb k p && holdsb k np && climb k s 20 np && seen k p n && proper n && negb (same p n np nn) &&
      match lookup hash s np nn with Some v => seen k np nn && ((held k v =? 0) || match getattr s v with Some (false, 1) => false | _ => true end) | None => true end &&
      match lookup hash s p n with Some fd => holdsb k fd && negb (np =? fd) && legalb hash s (Rename p fd n np (lookup hash s np nn) nn) | None => true end
  | Forget i c => (i =? 1) || (0 <? held k i) && (c =? held k i)
  | Getattr i => holdsb k i
  end.
Lemma sensibleb_ok (Inj : forall i j, dhash i = dhash j -> i = j) k s q : sensibleb k s q = true -> sensible hash dhash k s q.
Proof.
  destruct q as [p n|p n|p n|i p n|p n|p n|p n np nn|i c|i]; cbn [sensibleb sensible]; intros H.
  - apply andb_true_iff in H as [H1 H2]. split; [now apply holdsb_ok|]. intros ->. discriminate.
  - apply andb_true_iff in H as [H1 H2]. split; [now apply holdsb_ok|now apply (legalb_ok hash s (Create p n))].
  - apply andb_true_iff in H as [H1 H2]. split; [now apply holdsb_ok|now apply (legalb_ok hash s (Mkdir p n))].
  - apply andb_true_iff in H as [H H4]. apply andb_true_iff in H as [H H3]. apply andb_true_iff in H as [H1 H2]. split; [now apply holdsb_ok|]. split; [now apply holdsb_ok|]. split; [now apply (legalb_ok hash s (Link p i n))|now apply (luckyb_ok hash dhash s (Link p i n) Inj)].
  - apply andb_true_iff in H as [H H3]. apply andb_true_iff in H as [H1 H2]. split; [now apply holdsb_ok|]. split; [now apply (legalb_ok hash s (Unlink p n true))|]. split; [now apply (luckyb_ok hash dhash s (Unlink p n true) Inj)|]. intros i Ei Hi. rewrite Ei in H3. apply orb_true_iff in H3. destruct H3 as [H3|H3]; [apply Z.leb_le in H3; lia|exact H3].
  - apply andb_true_iff in H as [H1 H2]. split; [now apply holdsb_ok|now apply (legalb_ok hash s (Rmdir p n))].
  - apply andb_true_iff in H as [H H8]. apply andb_true_iff in H as [H H7]. apply andb_true_iff in H as [H H6]. apply andb_true_iff in H as [H H5]. apply andb_true_iff in H as [H H4]. apply andb_true_iff in H as [H H3]. apply andb_true_iff in H as [H1 H2].
    split; [now apply holdsb_ok|]. split; [now apply holdsb_ok|]. split; [exact (climb_ok k s 20 np H3)|]. split; [exact H4|]. split; [now apply ordinary_proper|]. split; [intros X; injection X as -> ->; destruct (same_spec np nn np nn) as [_|X]; [discriminate|tauto]|]. split.
    + intros X. destruct (lookup hash s np nn); [|congruence]. apply andb_true_iff in H7. tauto.
    + intros fd E. rewrite E in H8. apply andb_true_iff in H8 as [H8 L]. apply andb_true_iff in H8 as [Hf Hn]. split; [now apply holdsb_ok|]. split; [intros ->; rewrite Z.eqb_refl in Hn; discriminate|]. split; [now apply (legalb_ok hash s (Rename p fd n np (lookup hash s np nn) nn))|].
      intros v Ev G. rewrite Ev in H7. apply andb_true_iff in H7. destruct H7 as [_ H7]. rewrite G, orb_false_r in H7. now apply Z.eqb_eq.
  - apply orb_true_iff in H. destruct H as [H|H]; [left; now apply Z.eqb_eq|right]. apply andb_true_iff in H as [H1 H2]. split; [now apply Z.ltb_lt|]. split; [now apply Z.eqb_eq|now apply (luckyb_ok hash dhash s (Inactive i) Inj)].
  - now apply holdsb_ok.
Qed.
Fixpoint play (x : ffs) (k : kernel) (l : list req) : option (list reply * ffs * kernel) :=
  match l with
  | [] => Some ([], x, k)
  | q :: l => if sensibleb k (base x) q then
                match fstep hash dhash 20 x q with
                | Some (r, x1) => match play x1 (told k q r) l with Some (rs, x', k') => Some (r :: rs, x', k') | None => None end
                | None => None
                end
              else None
  end.
Lemma play_ok (Inj : forall i j, dhash i = dhash j -> i = j) l : forall x k rs x' k', play x k l = Some (rs, x', k') -> plays hash dhash x k l x' k'.
Proof.
  induction l as [|q l IH]; intros x k rs x' k' E; cbn [play] in E; [injection E as _ <- <-; constructor|]. destruct (sensibleb k (base x) q) eqn:S; [|discriminate]. destruct (fstep hash dhash 20 x q) as [[r x1]|] eqn:F; [|discriminate]. destruct (play x1 (told k q r) l) as [[[rs1 x2] k2]|] eqn:P; [|discriminate]. injection E as _ <- <-.
  econstructor; [now apply sensibleb_ok|exact F|exact (IH _ _ _ _ _ P)].
Qed.
End Check.

(** C77: directories, files, a link, a name that collides, lookups of cached, forgotten, unknown and removed files and of ".",
    removal of an open file, renames between directories and over a file, a move of a directory below itself *)
Definition history77 : list req :=
  [MkDir 1 na; MkDir 1 nb; MkFile 2 na; Lookup 2 na; MkLink 4 3 nc; MkFile 2 nh; Forget 4 2; Lookup 3 nc; Lookup 2 nc; Lookup 2 DOT; Remove 2 na; Remove 3 nc; Getattr 4; Lookup 3 nc;
   Move 2 nh 3 na; MkDir 2 nb; Move 1 na 6 nc; Move 1 na 3 nb; Lookup 3 nb; Forget 4 1; RmDir 2 nb; Lookup 6 DOT; Forget 6 1; Forget 2 3; Lookup 3 nb].
Example C77_example : exists rs x k, play hash7 did (fuse_new (new_fs hash7)) boot history77 = Some (rs, x, k) /\
  rs = [Entry 2 true 2; Entry 3 true 2; Entry 4 false 1; Entry 4 false 1; Entry 4 false 2; Entry 5 false 1; Done; Entry 4 false 2; Fail ENOENT; Entry 2 true 2; Done; Done; Entry 4 false 0; Fail ENOENT;
        Done; Entry 6 true 2; Fail EINVAL; Done; Entry 2 true 3; Done; Done; Fail ENOENT; Done; Done; Entry 2 true 2].
Proof. destruct (play hash7 did (fuse_new (new_fs hash7)) boot history77) as [[[rs x] k]|] eqn:E; vm_compute in E; [|discriminate]. injection E as <- <- <-. eexists _, _, _. split; [reflexivity|]. reflexivity. Qed.
Example C77_example_plays : exists x k, plays hash7 did (fuse_new (new_fs hash7)) boot history77 x k.
Proof. destruct C77_example as (rs & x & k & E & _). exists x, k. exact (play_ok hash7 did did_inj _ _ _ _ _ _ E). Qed.

(** A file with names in two directories, forgotten by the kernel.  Two processes look up one name each at the same time.  The
    second reply panics ("Inode number reuse detected"). *)
Theorem C77_overlapping_lookups_refuted : exists hash dhash l x k a b r x1,
  hash DOT <> hash DOTDOT /\ (forall i j, dhash i = dhash j -> i = j) /\ plays hash dhash (fuse_new (new_fs hash)) boot l x k /\
  sensible hash dhash k (base x) (Lookup 2 na) /\ sensible hash dhash k (base x) (Lookup 3 na) /\
  lookup_begin x 2 na = Some a /\ lookup_begin x 3 na = Some b /\ lookup_end hash dhash x a = Some (r, x1) /\ lookup_end hash dhash x1 b = None.
Proof.
  exists hash7, did, [MkDir 1 na; MkDir 1 nb; MkFile 2 na; MkLink 4 3 na; Forget 4 1].
  destruct (play hash7 did (fuse_new (new_fs hash7)) boot [MkDir 1 na; MkDir 1 nb; MkFile 2 na; MkLink 4 3 na; Forget 4 1]) as [[[rs x] k]|] eqn:E; [|vm_compute in E; discriminate]. pose proof (play_ok hash7 did did_inj _ _ _ _ _ _ E) as P. vm_compute in E. injection E as _ <- <-.
  eexists _, _, _, _, _, _. split; [vm_compute; discriminate|]. split; [exact did_inj|]. split; [exact P|]. split; [apply sensibleb_ok; [exact did_inj|reflexivity]|]. split; [apply sensibleb_ok; [exact did_inj|reflexivity]|]. split; [vm_compute; reflexivity|]. split; [vm_compute; reflexivity|]. split; vm_compute; reflexivity.
Qed.
(** Two processes look up the same name at the same time, right after mounting.  The second reply panics ("Create of an existing
    file"). *)
Theorem C77_same_name_refuted : exists hash dhash s rs a b r x1,
  hash DOT <> hash DOTDOT /\ (forall i j, dhash i = dhash j -> i = j) /\ legal_run hash dhash (new_fs hash) [Create 1 na; Mount false] /\ run hash dhash (new_fs hash) [Create 1 na; Mount false] = Some (rs, s) /\
  sensible hash dhash boot s (Lookup 1 na) /\
  lookup_begin (fuse_new s) 1 na = Some a /\ lookup_begin (fuse_new s) 1 na = Some b /\ lookup_end hash dhash (fuse_new s) a = Some (r, x1) /\ lookup_end hash dhash x1 b = None.
Proof.
  exists hash7, did. destruct (run hash7 did (new_fs hash7) [Create 1 na; Mount false]) as [[rs s]|] eqn:E; [|vm_compute in E; discriminate]. assert (L : legal_run hash7 did (new_fs hash7) [Create 1 na; Mount false]) by (apply legal_runb; [exact did_inj|vm_compute; reflexivity]). vm_compute in E. injection E as <- <-.
  eexists _, _, _, _, _, _. split; [vm_compute; discriminate|]. split; [exact did_inj|]. split; [exact L|]. split; [reflexivity|]. split; [apply sensibleb_ok; [exact did_inj|reflexivity]|]. split; [vm_compute; reflexivity|]. split; [vm_compute; reflexivity|]. split; vm_compute; reflexivity.
Qed.
(** The FUSE protocol counts the reply to link as one more lookup.  A kernel that does so forgets the file with one more than the
    daemon has counted, and the daemon panics. *)
Theorem C77_link_counted_refuted : exists hash dhash l x k,
  hash DOT <> hash DOTDOT /\ (forall i j, dhash i = dhash j -> i = j) /\ plays hash dhash (fuse_new (new_fs hash)) boot l x k /\
  l = [MkFile 1 na; MkLink 2 1 nb] /\ held k 2 = 1 /\ forall fuel, fstep hash dhash fuel x (Forget 2 (held k 2 + 1)) = None.
Proof.
  exists hash7, did, [MkFile 1 na; MkLink 2 1 nb]. destruct (play hash7 did (fuse_new (new_fs hash7)) boot [MkFile 1 na; MkLink 2 1 nb]) as [[[rs x] k]|] eqn:E; [|vm_compute in E; discriminate]. pose proof (play_ok hash7 did did_inj _ _ _ _ _ _ E) as P. vm_compute in E. injection E as _ <- <-.
  eexists _, _. split; [vm_compute; discriminate|]. split; [exact did_inj|]. split; [exact P|]. split; [reflexivity|]. split; [reflexivity|]. intros fuel. vm_compute. reflexivity.
Qed.

(** ** C78 *)
Example C78_example : exists rs x k, play hash7 did (fuse_new (new_fs hash7)) boot [MkDir 1 na; MkDir 2 nb; MkDir 1 nb; Move 2 nb 4 na] = Some (rs, x, k) /\
  lookup hash7 (base x) 3 DOTDOT = Some 4 /\ holdsb k 3 = true /\ holdsb k 4 = true.
Proof. destruct (play hash7 did (fuse_new (new_fs hash7)) boot [MkDir 1 na; MkDir 2 nb; MkDir 1 nb; Move 2 nb 4 na]) as [[[rs x] k]|] eqn:E; vm_compute in E; [|discriminate]. injection E as <- <- <-. eexists _, _, _. split; [reflexivity|]. vm_compute. auto. Qed.
(** ".." of a directory is looked up, the directory is moved, and ".." is looked up again: the reply is the old parent. *)
Theorem C78_stale_dotdot_refuted : exists hash dhash l x k r1 x1 r2 x2 c x3,
  hash DOT <> hash DOTDOT /\ (forall i j, dhash i = dhash j -> i = j) /\ plays hash dhash (fuse_new (new_fs hash)) boot l x k /\
  fstep hash dhash 20 x (Lookup 3 DOTDOT) = Some (r1, x1) /\ sensible hash dhash (told k (Lookup 3 DOTDOT) r1) (base x1) (Move 2 nb 4 na) /\
  fstep hash dhash 20 x1 (Move 2 nb 4 na) = Some (r2, x2) /\ r2 = Done /\
  lookup hash (base x2) 3 DOTDOT = Some 4 /\ fstep hash dhash 20 x2 (Lookup 3 DOTDOT) = Some (Entry 2 true c, x3).
Proof.
  exists hash7, did, [MkDir 1 na; MkDir 2 nb; MkDir 1 nb]. destruct (play hash7 did (fuse_new (new_fs hash7)) boot [MkDir 1 na; MkDir 2 nb; MkDir 1 nb]) as [[[rs x] k]|] eqn:E; [|vm_compute in E; discriminate]. pose proof (play_ok hash7 did did_inj _ _ _ _ _ _ E) as P. vm_compute in E. injection E as _ <- <-.
  eexists _, _, _, _, _, _, _, _. split; [vm_compute; discriminate|]. split; [exact did_inj|]. split; [exact P|]. split; [vm_compute; reflexivity|]. split; [apply sensibleb_ok; [exact did_inj|vm_compute; reflexivity]|]. split; [vm_compute; reflexivity|]. split; [reflexivity|]. split; vm_compute; reflexivity.
Qed.
(** "." of a directory is looked up, the kernel forgets the directory, and NFS asks for "." again: a panic. *)
Theorem C78_dot_after_forget_refuted : exists hash dhash l x k,
  hash DOT <> hash DOTDOT /\ (forall i j, dhash i = dhash j -> i = j) /\ plays hash dhash (fuse_new (new_fs hash)) boot l x k /\
  directory (base x) 2 /\ forall fuel, fstep hash dhash fuel x (Lookup 2 DOT) = None.
Proof.
  exists hash7, did, [MkDir 1 na; Lookup 2 DOT; Forget 2 2]. destruct (play hash7 did (fuse_new (new_fs hash7)) boot [MkDir 1 na; Lookup 2 DOT; Forget 2 2]) as [[[rs x] k]|] eqn:E; [|vm_compute in E; discriminate]. pose proof (play_ok hash7 did did_inj _ _ _ _ _ _ E) as P. vm_compute in E. injection E as _ <- <-.
  eexists _, _. split; [vm_compute; discriminate|]. split; [exact did_inj|]. split; [exact P|]. split; [exists 2; vm_compute; reflexivity|]. intros fuel. vm_compute. reflexivity.
Qed.
Print Assumptions C77_overlapping_lookups_refuted.
Print Assumptions C77_same_name_refuted.
Print Assumptions C77_link_counted_refuted.
Print Assumptions C78_stale_dotdot_refuted.
Print Assumptions C78_dot_after_forget_refuted.

(** The kernel holds a directory and its files but has forgotten the directory above it.  Renaming a file within the directory
    panics ("Uncached parent directory"). *)
Theorem C77_forgotten_ancestor_refuted : exists hash dhash l x k,
  hash DOT <> hash DOTDOT /\ (forall i j, dhash i = dhash j -> i = j) /\ plays hash dhash (fuse_new (new_fs hash)) boot l x k /\
  holds k 3 /\ holds k 4 /\ seen k 3 na = true /\ legal hash (base x) (Rename 3 4 na 3 None nb) /\ ~ directory (base x) 4 /\ forall fuel, fstep hash dhash fuel x (Move 3 na 3 nb) = None.
Proof.
  exists hash7, did, [MkDir 1 na; MkDir 2 nb; MkFile 3 na; Forget 2 1]. destruct (play hash7 did (fuse_new (new_fs hash7)) boot [MkDir 1 na; MkDir 2 nb; MkFile 3 na; Forget 2 1]) as [[[rs x] k]|] eqn:E; [|vm_compute in E; discriminate]. pose proof (play_ok hash7 did did_inj _ _ _ _ _ _ E) as P. vm_compute in E. injection E as _ <- <-.
  eexists _, _. split; [vm_compute; discriminate|]. split; [exact did_inj|]. split; [exact P|]. split; [apply holdsb_ok; reflexivity|]. split; [apply holdsb_ok; reflexivity|]. split; [reflexivity|]. split; [apply legalb_ok; vm_compute; reflexivity|]. split; [intros (c & G); vm_compute in G; discriminate|]. intros [|[|fuel]]; vm_compute; reflexivity.
Qed.
Print Assumptions C77_forgotten_ancestor_refuted.
