(** C92 attributes, C93 timestamps, C94 the link count set by link. *)
From Verif Require Import Common ZMap Attr_Model.

(** * Specification *)

(** what clients ask for.  [SetExt]: an extended attribute is set or removed (fs.rs:2256-2274 touches no inode); [List_]: a
    directory is listed (fs.rs:1850-1970); [Gone]: the last user of a nameless object lets go of it. *)
Inductive op :=
| Create (parent i : Z) (t : ftype) (perm uid gid : Z)
| Link (o : order) (parent i : Z)
| Unlink (active : bool) (parent i : Z)
| Rmdir (parent i : Z)
| Rename (parent newparent i : Z) (isdir : bool) (old : option Z)
| SetAttr (i : Z) (a : sattr) (freed : Z)
| Write (i off len delta : Z)
| Dealloc (i off len freed : Z)
| Read (atime : bool) (i : Z)
| SetExt (i : Z)
| List_ (atime : bool) (i : Z)
| Gone (i : Z).
(** an operation, when it began and ended, and what the clock showed in between *)
Record event := Ev { e_op : op; e_t0 : Z; e_t1 : Z; e_ts : nat -> Z }.
Definition timed (e : event) : Prop := e_t0 e <= e_t1 e /\ forall n, e_t0 e <= e_ts e n <= e_t1 e.
Definition during (e : event) (t : Z) : Prop := e_t0 e <= t <= e_t1 e.

(** numbers of objects that differ by their nature; permissions have twelve bits; the ctime is not for clients to set *)
Definition legal (o : op) : Prop :=
  match o with
  | Create parent i t perm uid gid => 0 <= perm < 2 ^ 12
  | Link _ parent i | Unlink _ parent i | Rmdir parent i => parent <> i
  | Rename parent newparent i _ old => i <> parent /\ i <> newparent /\ match old with Some v => v <> parent /\ v <> newparent | None => True end
  | SetAttr i a _ => a_ctime a = None /\ match a_perm a with Some p => 0 <= p < 2 ^ 12 | None => True end
  | Write _ off len _ | Dealloc _ off len _ => 0 <= off /\ 0 <= len
  | _ => True
  end.
Definition in_turn (o : op) : Prop := match o with Link IGS _ _ => True | Link _ _ _ => False | _ => True end.

(** the file system of a new data set: database/database.rs create_fs, the root directory has number 1 *)
Definition new_fs (now : Z) : fs := [(1, Inode 0 0 1 0 now now now now 0 0 493 Dir)].
Definition step (s : fs) (e : event) : option fs :=
  let ts := e_ts e in
  match e_op e with
  | Create parent i t perm uid gid => create s ts parent i t perm uid gid
  | Link o parent i => link s ts o parent i
  | Unlink active parent i => unlink s ts active parent i
  | Rmdir parent i => rmdir s ts parent i
  | Rename parent newparent _ isdir old => rename s ts parent newparent isdir old
  | SetAttr i a freed => setattr s ts i a freed
  | Write i off len delta => write s ts i off len delta
  | Dealloc i off len freed => deallocate s ts i off len freed
  | Read atime i => read s ts atime i
  | SetExt _ | List_ _ _ => Some s
  | Gone i => Some (reap s i)
  end.
Fixpoint run (s : fs) (es : list event) : option fs :=
  match es with [] => Some s | e :: r => match step s e with Some s' => run s' r | None => None end end.

(** ** what stat should show *)
(** the last value given for an attribute of object [i] *)
Definition last_given {A} (given : op -> option A) (first : option A) (es : list event) : option A :=
  fold_left (fun acc e => match given (e_op e) with Some x => Some x | None => acc end) es first.
Definition root_has {A} (i : Z) (x : A) : option A := if i =? 1 then Some x else None.
Definition gives_perm i o := match o with Create _ j _ p _ _ => if i =? j then Some p else None | SetAttr j a _ => if i =? j then a_perm a else None | _ => None end.
Definition gives_uid i o := match o with Create _ j _ _ u _ => if i =? j then Some u else None | SetAttr j a _ => if i =? j then a_uid a else None | _ => None end.
Definition gives_gid i o := match o with Create _ j _ _ _ g => if i =? j then Some g else None | SetAttr j a _ => if i =? j then a_gid a else None | _ => None end.
Definition gives_flags i o := match o with Create _ j _ _ _ _ => if i =? j then Some 0 else None | SetAttr j a _ => if i =? j then a_flags a else None | _ => None end.
Definition gives_type i o := match o with Create _ j t _ _ _ => if i =? j then Some t else None | _ => None end.
Definition kind_name (t : ftype) : fkind :=
  match t with Fifo => NamedPipe | Char _ => CharDevice | Dir => Directory | Block _ => BlockDevice | Reg _ => RegularFile | Lnk _ => Symlink | Socket => SocketFile end.
Definition dev_of (t : ftype) : Z := match t with Char d | Block d => d | _ => 0 end.

(** ** which timestamps an operation should set *)
(** the contents of object [i]: a file's bytes, a directory's names *)
Definition contents_of (s : fs) (o : op) (i : Z) : Prop :=
  match o with
  | Create parent _ _ _ _ _ | Link _ parent _ | Unlink _ parent _ | Rmdir parent _ => i = parent
  | Rename parent newparent _ _ _ => i = parent \/ i = newparent
  | SetAttr j a _ => i = j /\ a_size a <> None
  | Write j _ _ _ => i = j
  | Dealloc j off len _ => i = j /\ 0 < len /\ exists g, getattr s i = Some g /\ off < g_size g
  | _ => False
  end.
Definition asked_mtime (o : op) (i : Z) : option Z := match o with SetAttr j a _ => if i =? j then a_mtime a else None | _ => None end.
Definition asked_atime (o : op) (i : Z) : option Z := match o with SetAttr j a _ => if i =? j then a_atime a else None | _ => None end.
Definition same_but_atime (g g' : gattr) : Prop :=
  g_size g = g_size g' /\ g_bytes g = g_bytes g' /\ g_mtime g = g_mtime g' /\ g_ctime g = g_ctime g' /\ g_birth g = g_birth g' /\
  g_mode g = g_mode g' /\ g_nlink g = g_nlink g' /\ g_uid g = g_uid g' /\ g_gid g = g_gid g' /\ g_rdev g = g_rdev g' /\
  g_blksize g = g_blksize g' /\ g_flags g = g_flags g'.

(** * Proof *)

(** how one inode may differ after a step: [cont] whether its contents changed *)
Record effect (e : event) (i : Z) (cont : bool) (v v' : inode) : Prop := {
  ef_type : i_type v' = or (gives_type i (e_op e)) (i_type v);
  ef_perm : i_perm v' = or (gives_perm i (e_op e)) (i_perm v);
  ef_uid : i_uid v' = or (gives_uid i (e_op e)) (i_uid v);
  ef_gid : i_gid v' = or (gives_gid i (e_op e)) (i_gid v);
  ef_flags : i_flags v' = or (gives_flags i (e_op e)) (i_flags v);
  ef_c : in_turn (e_op e) -> (v' = set_atime (i_atime v') v) \/ during e (i_ctime v');
  ef_m : match asked_mtime (e_op e) i with Some t => i_mtime v' = t
         | None => if cont then during e (i_mtime v') /\ during e (i_ctime v') else i_mtime v' = i_mtime v end;
  ef_a : match asked_atime (e_op e) i with Some t => i_atime v' = t
         | None => match e_op e with Read true j => if i =? j then during e (i_atime v') else i_atime v' = i_atime v | _ => i_atime v' = i_atime v end end
}.
Definition contb (s : fs) (o : op) (i : Z) : bool :=
  match o with
  | Create parent _ _ _ _ _ | Link _ parent _ | Unlink _ parent _ | Rmdir parent _ => i =? parent
  | Rename parent newparent _ _ _ => (i =? parent) || (i =? newparent)
  | SetAttr j a _ => (i =? j) && match a_size a with Some _ => true | None => false end
  | Write j _ _ _ => i =? j
  | Dealloc j off len _ => (i =? j) && (0 <? len) && match zm_get i s with Some v => off <? i_size v | None => false end
  | _ => false
  end.
Lemma contb_spec s o i : contb s o i = true <-> contents_of s o i.
Proof.
  destruct o; cbn [contb contents_of]; rewrite ?andb_true_iff, ?orb_true_iff, ?Z.eqb_eq, ?Z.ltb_lt; try tauto; try (split; [discriminate|tauto]).
  - split; intros [-> H]; (split; [reflexivity|]); destruct (a_size a); congruence.
  - unfold getattr. split.
    + intros [[-> H] H2]. split; [reflexivity|]. split; [exact H|]. destruct (zm_get i0 s) as [v|]; [|discriminate]. exists (getattr_inode v). split; [reflexivity|]. cbn. lia.
    + intros (-> & H & g & E & L). split; [auto|]. destruct (zm_get i0 s) as [v|]; [|discriminate]. injection E as <-. cbn in L. lia.
Qed.

Lemma change_get s i f s' : zm_ok s -> change s i f = Some s' -> zm_ok s' /\ exists v, zm_get i s = Some v /\ forall j, zm_get j s' = if j =? i then Some (f v) else zm_get j s.
Proof.
  intros O. unfold change. destruct (zm_get i s) as [v|]; [|discriminate]. intros E. injection E as <-. split; [now apply zm_ok_set|]. exists v. split; [reflexivity|].
  intros j. now apply zm_get_set.
Qed.
Lemma setattr_get s i a fr s' : zm_ok s -> do_setattr s i a fr = Some s' -> zm_ok s' /\ exists v, zm_get i s = Some v /\ forall j, zm_get j s' = if j =? i then Some (setattr_inode a fr v) else zm_get j s.
Proof.
  intros O. unfold do_setattr. destruct (zm_get i s) as [v|]; [|discriminate]. destruct (_ && _); [discriminate|]. intros E. injection E as <-. split; [now apply zm_ok_set|]. exists v. split; [reflexivity|].
  intros j. now apply zm_get_set.
Qed.
Lemma unlink_get s now act i s' : zm_ok s -> do_unlink s now act i = Some s' -> zm_ok s' /\ exists v, zm_get i s = Some v /\
  forall j, zm_get j s' = if j =? i then zm_get i s' else zm_get j s.
Proof.
  intros O. unfold do_unlink. destruct (zm_get i s) as [v|] eqn:G; [|discriminate]. destruct (_ || _); intros E; injection E as <-.
  - split; [now apply zm_ok_set|]. exists v. split; [reflexivity|]. intros j. destruct (Z.eqb_spec j i) as [->|N]; [reflexivity|]. rewrite zm_get_set by exact O. destruct (Z.eqb_spec j i); congruence.
  - split; [now apply zm_ok_del|]. exists v. split; [reflexivity|]. intros j. destruct (Z.eqb_spec j i) as [->|N]; [reflexivity|]. rewrite zm_get_del by exact O. destruct (Z.eqb_spec j i); congruence.
Qed.
Lemma unlink_self s now act i s' v' : zm_ok s -> do_unlink s now act i = Some s' -> zm_get i s' = Some v' -> exists v, zm_get i s = Some v /\ v' = set_ctime now (set_nlink (Z.max 0 (i_nlink v - 1)) v).
Proof.
  intros O. unfold do_unlink. destruct (zm_get i s) as [v|] eqn:G; [|discriminate]. destruct (_ || _); intros E; injection E as <-.
  - rewrite zm_get_set, Z.eqb_refl by exact O. intros E. injection E as <-. eauto.
  - rewrite zm_get_del, Z.eqb_refl by exact O. discriminate.
Qed.

Lemma times_touch now v : setattr_inode (times now) 0 v = touch now v.
Proof. unfold setattr_inode. cbn. now rewrite Z.ltb_irrefl. Qed.

(** an object untouched by the step *)
Lemma untouched e i v (s : fs) : gives_perm i (e_op e) = None -> gives_uid i (e_op e) = None -> gives_gid i (e_op e) = None -> gives_flags i (e_op e) = None -> gives_type i (e_op e) = None ->
  asked_mtime (e_op e) i = None -> asked_atime (e_op e) i = None -> contb s (e_op e) i = false ->
  (forall j, e_op e = Read true j -> i <> j) -> effect e i (contb s (e_op e) i) v v.
Proof.
  intros H1 H2 H3 H4 H9 H5 H6 H7 H8. constructor; rewrite ?H1, ?H2, ?H3, ?H4, ?H5, ?H6, ?H7, ?H9; try reflexivity.
  - intros _. left. destruct v; reflexivity.
  - destruct (e_op e) as [| | | | | | | |[|] j| | |]; try reflexivity. specialize (H8 j eq_refl). destruct (Z.eqb_spec i j); congruence.
Qed.

Definition born (e : event) (i : Z) (v : inode) : Prop :=
  exists parent t perm uid gid, e_op e = Create parent i t perm uid gid /\ i_type v = t /\ i_perm v = perm /\ i_uid v = uid /\ i_gid v = gid /\
    i_flags v = 0 /\ i_size v = 0 /\ during e (i_ctime v) /\ during e (i_mtime v) /\ during e (i_atime v) /\ during e (i_birth v).

Ltac eqbs := repeat match goal with
  | H : ?a <> ?b |- context [?a =? ?b] => rewrite (proj2 (Z.eqb_neq a b) H)
  | H : ?b <> ?a |- context [?a =? ?b] => rewrite (proj2 (Z.eqb_neq a b) (not_eq_sym H))
  | |- context [?a =? ?a] => rewrite (Z.eqb_refl a)
  end.
Ltac eff T := constructor; cbn -[Z.eqb Z.max Z.ltb u64]; eqbs; cbn -[Z.eqb Z.max Z.ltb u64]; try reflexivity; try (intros _; right; apply T); try (intros []; fail); try (split; apply T); try apply T.

Lemma step_effect s e s' : zm_ok s -> timed e -> legal (e_op e) -> step s e = Some s' ->
  zm_ok s' /\ forall i v', zm_get i s' = Some v' ->
    (exists v, zm_get i s = Some v /\ effect e i (contb s (e_op e) i) v v') \/ (zm_get i s = None /\ born e i v').
Proof.
  intros O [T0 T] L. destruct e as [o t0 t1 ts]. unfold step. cbn [e_op e_ts e_t0 e_t1] in *.
  assert (NT : forall i v, gives_perm i o = None -> gives_uid i o = None -> gives_gid i o = None -> gives_flags i o = None -> gives_type i o = None ->
      asked_mtime o i = None -> asked_atime o i = None -> contb s o i = false -> (forall j, o = Read true j -> i <> j) ->
      effect (Ev o t0 t1 ts) i (contb s o i) v v) by (intros; apply (untouched (Ev o t0 t1 ts)); assumption).
  destruct o as [parent i t perm uid gid|o parent i|act parent i|parent i|parent newparent i isdir old|i a fr|i off len d|i off len fr|at_ i|i|at_ i|i]; cbn [legal] in *.
  - (* create *)
    unfold create. intros E.
    assert (B : exists s1, (match t with Dir => change s parent (fun p => touch (ts 1%nat) (set_nlink (u64 (i_nlink p + 1)) p)) | _ => do_setattr s parent (times (ts 1%nat)) 0 end) = Some s1 /\
                zm_get i s1 = None /\ s' = zm_set i (Inode 0 0 (match t with Dir => 2 | _ => 1 end) 0 (ts 0%nat) (ts 0%nat) (ts 0%nat) (ts 0%nat) uid gid perm t) s1).
    { destruct (match t with Dir => _ | _ => _ end) as [s1|]; [|discriminate]. exists s1. split; [reflexivity|]. destruct (zm_get i s1); [discriminate|]. split; congruence. }
    clear E. destruct B as (s1 & E1 & N & ->).
    assert (B : zm_ok s1 /\ exists v n, zm_get parent s = Some v /\ forall j, zm_get j s1 = if j =? parent then Some (touch (ts 1%nat) (set_nlink n v)) else zm_get j s).
    { destruct t; try (destruct (setattr_get _ _ _ _ _ O E1) as (O1 & v & G & H); split; [exact O1|]; exists v, (i_nlink v); split; [exact G|]; intros j; rewrite H, times_touch; destruct v; reflexivity).
      destruct (change_get _ _ _ _ O E1) as (O1 & v & G & H); split; [exact O1|]; exists v; eauto. }
    destruct B as (O1 & v & n & G & H). split; [now apply zm_ok_set|]. intros j v'. rewrite zm_get_set by exact O1.
    destruct (Z.eqb_spec j i) as [->|Nj].
    + intros E. injection E as <-. right. rewrite H in N. destruct (i =? parent); [discriminate|]. split; [exact N|].
      exists parent, t, perm, uid, gid. cbn. repeat (split; [reflexivity || apply T|]). apply T.
    + rewrite H. destruct (Z.eqb_spec j parent) as [->|Np]; intros E.
      * injection E as <-. left. exists v. split; [exact G|]. eff T.
      * left. exists v'. split; [exact E|]. apply NT; cbn; eqbs; try reflexivity; intros; discriminate.
  - (* link *)
    unfold link. destruct (zm_get i s) as [v|] eqn:G; [|discriminate]. intros E.
    destruct (setattr_get _ _ _ _ _ (zm_ok_set _ _ _ O) E) as (O1 & p & Gp & H). split; [exact O1|]. intros j v'. rewrite H.
    rewrite zm_get_set in Gp by exact O. rewrite (proj2 (Z.eqb_neq parent i) L) in Gp.
    destruct (Z.eqb_spec j parent) as [->|Np]; intros E'.
    + injection E' as <-. left. exists p. split; [exact Gp|]. eff T.
    + rewrite zm_get_set in E' by exact O. destruct (Z.eqb_spec j i) as [->|Nj].
      * injection E' as <-. left. exists v. split; [exact G|]. destruct o; eff T.
      * left. exists v'. split; [exact E'|]. apply NT; cbn; eqbs; try reflexivity; intros; discriminate.
  - (* unlink *)
    unfold unlink. destruct (do_unlink s (ts 1%nat) act i) as [s1|] eqn:U; [|discriminate]. intros E.
    destruct (unlink_get _ _ _ _ _ O U) as (O1 & v & G & H1). destruct (setattr_get _ _ _ _ _ O1 E) as (O2 & p & Gp & H). split; [exact O2|].
    intros j v'. rewrite H. rewrite H1, (proj2 (Z.eqb_neq parent i) L) in Gp.
    destruct (Z.eqb_spec j parent) as [->|Np]; intros E'.
    + injection E' as <-. left. exists p. split; [exact Gp|]. eff T.
    + destruct (Z.eqb_spec j i) as [->|Nj].
      * destruct (unlink_self _ _ _ _ _ _ O U E') as (w & Gw & ->). left. exists w. split; [exact Gw|]. eff T.
      * rewrite H1, (proj2 (Z.eqb_neq j i) Nj) in E'. left. exists v'. split; [exact E'|]. apply NT; cbn; eqbs; try reflexivity; intros; discriminate.
  - (* rmdir *)
    unfold rmdir, do_rmdir. intros E. destruct (change_get _ _ _ _ (zm_ok_del _ _ O) E) as (O1 & p & Gp & H). split; [exact O1|].
    intros j v'. rewrite H. rewrite zm_get_del, (proj2 (Z.eqb_neq parent i) L) in Gp by exact O.
    destruct (Z.eqb_spec j parent) as [->|Np]; intros E'.
    + injection E' as <-. left. exists p. split; [exact Gp|]. eff T.
    + rewrite zm_get_del in E' by exact O. destruct (Z.eqb_spec j i) as [->|Nj]; [discriminate|].
      left. exists v'. split; [exact E'|]. apply NT; cbn; eqbs; try reflexivity; intros; discriminate.
  - (* rename *)
    destruct L as (L1 & L2 & L3). unfold rename. cbv zeta. intros E.
    match type of E with match ?x with Some _ => _ | None => _ end = _ => destruct x as [s1|] eqn:E1; [|discriminate E] end.
    assert (B : zm_ok s1 /\ (forall j v', zm_get j s1 = Some v' -> zm_get j s = Some v' \/ (exists v, zm_get j s = Some v /\ j <> parent /\ j <> newparent /\ v' = set_ctime (ts 2%nat) (set_nlink (Z.max 0 (i_nlink v - 1)) v)))).
    { destruct old as [w|]; [|injection E1 as <-; split; [exact O|intros j v' ->; now left]]. destruct isdir.
      - unfold do_rmdir in E1. injection E1 as <-. split; [now apply zm_ok_del|]. intros j v'. rewrite zm_get_del by exact O. destruct (j =? w); [discriminate|]. now left.
      - destruct (unlink_get _ _ _ _ _ O E1) as (O1 & v & G & H1). split; [exact O1|]. intros j v' Ej. destruct (Z.eqb_spec j w) as [->|Nj].
        + destruct (unlink_self _ _ _ _ _ _ O E1 Ej) as (x & Gx & ->). right. exists x. tauto.
        + rewrite H1, (proj2 (Z.eqb_neq j w) Nj) in Ej. now left. }
    destruct B as (O1 & H1).
    destruct (change s1 parent _) as [s2|] eqn:E2; [|discriminate]. destruct (change_get _ _ _ _ O1 E2) as (O2 & p & Gp & H2).
    assert (B : zm_get parent s = Some p). { destruct (H1 _ _ Gp) as [K|(v & _ & K & _)]; [exact K|congruence]. }
    assert (F : forall j v', zm_get j s2 = Some v' -> j <> newparent -> exists v, zm_get j s = Some v /\ effect (Ev (Rename parent newparent i isdir old) t0 t1 ts) j (contb s (Rename parent newparent i isdir old) j) v v').
    { intros j v'. rewrite H2. destruct (Z.eqb_spec j parent) as [->|Np]; intros E' Nn.
      - injection E' as <-. exists p. split; [exact B|]. match goal with |- context [if ?b then set_nlink _ _ else _] => destruct b end; eff T.
      - destruct (H1 _ _ E') as [K|(v & K & _ & _ & ->)].
        + exists v'. split; [exact K|]. apply NT; cbn; eqbs; try reflexivity; intros; discriminate.
        + exists v. split; [exact K|]. eff T. }
    destruct (Z.eqb_spec parent newparent) as [<-|Nn].
    + injection E as <-. split; [exact O2|]. intros j v' E'. left. destruct (Z.eq_dec j parent) as [->|Nj]; [|now apply F].
      rewrite H2, Z.eqb_refl in E'. injection E' as <-. exists p. split; [exact B|]. match goal with |- context [if ?b then set_nlink _ _ else _] => destruct b end; eff T.
    + destruct (change_get _ _ _ _ O2 E) as (O3 & q & Gq & H3). split; [exact O3|]. intros j v'. rewrite H3.
      destruct (Z.eqb_spec j newparent) as [->|Nj]; intros E'; left; [|now apply F].
      injection E' as <-. exists q. split.
      * rewrite H2 in Gq. rewrite (proj2 (Z.eqb_neq newparent parent)) in Gq by congruence. destruct (H1 _ _ Gq) as [K|(v & _ & _ & K & _)]; [exact K|congruence].
      * match goal with |- context [if ?b then set_nlink _ _ else _] => destruct b end; constructor; cbn -[Z.eqb u64]; rewrite ?Z.eqb_refl, ?orb_true_r; cbn -[u64]; try reflexivity; try (intros _; right; apply T); try (intros []; fail); split; apply T.
  - (* setattr *)
    unfold setattr. destruct L as (LC & LP). rewrite LC. intros E. destruct (setattr_get _ _ _ _ _ O E) as (O1 & v & G & H). split; [exact O1|]. intros j v'. rewrite H.
    destruct (Z.eqb_spec j i) as [->|Nj]; intros E'; left.
    + injection E' as <-. exists v. split; [exact G|]. eff T.
      * destruct (a_mtime a), (a_size a); try reflexivity. split; apply T.
      * destruct (a_atime a); reflexivity.
    + exists v'. split; [exact E'|]. apply NT; cbn; eqbs; try reflexivity; intros; discriminate.
  - (* write *)
    unfold write. destruct (zm_get i s) as [v|] eqn:G; [|discriminate]. destruct (is_reg (i_type v)); [|discriminate]. intros E. injection E as <-. split; [now apply zm_ok_set|].
    intros j v'. rewrite zm_get_set by exact O. destruct (Z.eqb_spec j i) as [->|Nj]; intros E'; left.
    + injection E' as <-. exists v. split; [exact G|]. eff T.
    + exists v'. split; [exact E'|]. apply NT; cbn; eqbs; try reflexivity; intros; discriminate.
  - (* deallocate *)
    unfold deallocate. destruct (zm_get i s) as [v|] eqn:G; [|discriminate]. destruct (negb _); [discriminate|].
    destruct (Z.ltb_spec 0 (Z.min (Z.max 0 (i_size v - Z.min (i_size v) off)) len)) as [P|P]; intros E; injection E as <-.
    + split; [now apply zm_ok_set|]. intros j v'. rewrite zm_get_set by exact O. destruct (Z.eqb_spec j i) as [->|Nj]; intros E'; left.
      * injection E' as <-. exists v. split; [exact G|]. assert (C : contb s (Dealloc i off len fr) i = true). { cbn. rewrite G, Z.eqb_refl. cbn. apply andb_true_iff. rewrite !Z.ltb_lt. lia. }
        rewrite C. eff T.
      * exists v'. split; [exact E'|]. apply NT; cbn; eqbs; try reflexivity; intros; discriminate.
    + split; [exact O|]. intros j v' E'. left. exists v'. split; [exact E'|]. apply NT; try reflexivity; try discriminate.
      cbn. destruct (Z.eqb_spec j i) as [->|Nj]; [|reflexivity]. rewrite G. cbn. apply andb_false_iff. rewrite !Z.ltb_ge. lia.
  - (* read *)
    unfold read. destruct (zm_get i s) as [v|] eqn:G; [|discriminate]. destruct (negb _); [discriminate|]. intros E. injection E as <-. destruct at_.
    + split; [now apply zm_ok_set|]. intros j v'. rewrite zm_get_set by exact O. destruct (Z.eqb_spec j i) as [->|Nj]; intros E'; left.
      * injection E' as <-. exists v. split; [exact G|]. eff T. intros _. now left.
      * exists v'. split; [exact E'|]. apply NT; try reflexivity. intros k K. injection K as ->. exact Nj.
    + split; [exact O|]. intros j v' E'. left. exists v'. split; [exact E'|]. apply NT; try reflexivity; discriminate.
  - intros E. injection E as <-. split; [exact O|]. intros j v' E'. left. exists v'. split; [exact E'|]. apply NT; try reflexivity; discriminate.
  - intros E. injection E as <-. split; [exact O|]. intros j v' E'. left. exists v'. split; [exact E'|]. apply NT; try reflexivity; discriminate.
  - intros E. injection E as <-. split; [now apply zm_ok_del|]. intros j v'. unfold reap. rewrite zm_get_del by exact O. destruct (j =? i); [discriminate|]. intros E'. left. exists v'. split; [exact E'|]. apply NT; try reflexivity; discriminate.
Qed.

(** * Theorems *)

(** operations that follow one another, the first not before [now] *)
Fixpoint clocked (now : Z) (es : list event) : Prop :=
  match es with [] => True | e :: r => now <= e_t0 e /\ timed e /\ legal (e_op e) /\ clocked (e_t1 e) r end.
Fixpoint ends (now : Z) (es : list event) : Z := match es with [] => now | e :: r => ends (e_t1 e) r end.

Lemma new_ok T : zm_ok (new_fs T).
Proof. unfold new_fs, zm_ok. cbn. repeat constructor; intros []. Qed.
Lemma run_ok now es : forall s s', zm_ok s -> clocked now es -> run s es = Some s' -> zm_ok s'.
Proof.
  revert now. induction es as [|e es IH]; intros now s s' O C; cbn.
  - intros E. injection E as <-. exact O.
  - destruct C as (_ & T & L & C). destruct (step s e) as [s1|] eqn:E1; [|discriminate]. apply (IH _ _ _ (proj1 (step_effect _ _ _ O T L E1)) C).
Qed.
Lemma ends_le es : forall now, clocked now es -> now <= ends now es.
Proof. induction es as [|e es IH]; intros now C; cbn; [lia|]. destruct C as (H & [T _] & _ & C). specialize (IH _ C). lia. Qed.

Section Last.
  Context {A : Type} (sel : inode -> A) (gives : Z -> op -> option A).
  Hypothesis Hb : forall e i v, born e i v -> gives i (e_op e) = Some (sel v).
  Hypothesis He : forall e i c v v', effect e i c v v' -> sel v' = or (gives i (e_op e)) (sel v).
  Lemma last_run : forall es now s s' first, zm_ok s -> clocked now es -> run s es = Some s' ->
    (forall i v, zm_get i s = Some v -> first i = Some (sel v)) ->
    forall i v, zm_get i s' = Some v -> last_given (gives i) (first i) es = Some (sel v).
  Proof.
    induction es as [|e es IH]; intros now s s' first O C; cbn.
    - intros E H. injection E as <-. exact H.
    - destruct C as (_ & T & L & C). destruct (step s e) as [s1|] eqn:E1; [|discriminate]. intros E H i v G.
      destruct (step_effect _ _ _ O T L E1) as (O1 & S).
      apply (IH _ s1 s' (fun i => match gives i (e_op e) with Some x => Some x | None => first i end) O1 C E); [|exact G].
      intros j w Gj. destruct (S _ _ Gj) as [(w0 & G0 & Ef)|(_ & B)].
      + rewrite (He _ _ _ _ _ Ef), (H _ _ G0). destruct (gives j (e_op e)); reflexivity.
      + now rewrite (Hb _ _ _ B).
  Qed.
End Last.
Lemma first_new {A} (sel : inode -> A) T x : sel (Inode 0 0 1 0 T T T T 0 0 493 Dir) = x -> forall i v, zm_get i (new_fs T) = Some v -> root_has i x = Some (sel v).
Proof. intros H i v. unfold new_fs, root_has. cbn. destruct (Z.eqb_spec i 1) as [->|N]; [|destruct (1 =? i) eqn:K; [apply Z.eqb_eq in K; congruence|discriminate]]. cbn. intros E. injection E as <-. now rewrite H. Qed.

Lemma land_lor_type t p : 0 <= p < 2 ^ 12 -> Z.land (Z.lor (type_bits t) p) 61440 = type_bits t /\ Z.land (Z.lor (type_bits t) p) 4095 = p.
Proof.
  intros H. assert (Hp : Z.land p 4095 = p). { change 4095 with (Z.ones 12). rewrite Z.land_ones by lia. now apply Z.mod_small. }
  rewrite !Z.land_lor_distr_l. split.
  - rewrite <- Hp, <- Z.land_assoc. change (Z.land 4095 61440) with 0. rewrite Z.land_0_r, Z.lor_0_r. destruct t; reflexivity.
  - rewrite Hp. destruct t; reflexivity.
Qed.

Lemma last_range es : forall now i first p, clocked now es -> (forall q, first = Some q -> 0 <= q < 2 ^ 12) -> last_given (gives_perm i) first es = Some p -> 0 <= p < 2 ^ 12.
Proof.
  induction es as [|e es IH]; intros now i first p C F E; [now apply F|]. destruct C as (_ & _ & L & C). refine (IH _ i _ _ C _ E).
  intros q. destruct (gives_perm i (e_op e)) as [x|] eqn:G; [|apply F]. intros X. injection X as ->.
  destruct (e_op e); cbn in G; try discriminate.
  - destruct (_ =? _); [|discriminate]. injection G as ->. exact L.
  - destruct (_ =? _); [|discriminate]. destruct L as [_ L]. now rewrite G in L.
Qed.

(** C92: what stat shows of an object: the type it was created with, and the permissions, owner, group and flags last given to it, by its
    creation or since; and the daemon's answer to the kernel says the same *)
Theorem C92_attributes : forall T es s i g, clocked T es -> run (new_fs T) es = Some s -> getattr s i = Some g ->
  exists t p, last_given (gives_type i) (root_has i Dir) es = Some t /\ last_given (gives_perm i) (root_has i 493) es = Some p /\
    last_given (gives_uid i) (root_has i 0) es = Some (g_uid g) /\ last_given (gives_gid i) (root_has i 0) es = Some (g_gid g) /\
    last_given (gives_flags i) (root_has i 0) es = Some (g_flags g) /\
    g_rdev g = dev_of t /\ (g_mode g = Z.lor (type_bits t) p /\ 0 <= p < 2 ^ 12) /\
    exists f, fuse_attr g = Some f /\ f_kind f = kind_name t /\ f_perm f = p /\ f_uid f = g_uid g /\ f_gid f = g_gid g /\ f_size f = g_size g /\
      f_atime f = g_atime g /\ f_mtime f = g_mtime g /\ f_ctime f = g_ctime g /\
      (0 <= g_nlink g < 2 ^ 32 -> f_nlink f = g_nlink g) /\ (0 <= dev_of t < 2 ^ 32 -> f_rdev f = dev_of t).
Proof.
  intros T es s i g C R G. unfold getattr in G. destruct (zm_get i s) as [v|] eqn:Gv; [|discriminate]. injection G as <-.
  pose proof (new_ok T) as O.
  assert (Ht := last_run i_type gives_type). assert (Hp := last_run i_perm gives_perm). assert (Hu := last_run i_uid gives_uid). assert (Hg := last_run i_gid gives_gid). assert (Hf := last_run i_flags gives_flags).
  assert (BB : forall e i v, born e i v -> gives_type i (e_op e) = Some (i_type v) /\ gives_perm i (e_op e) = Some (i_perm v) /\ gives_uid i (e_op e) = Some (i_uid v) /\ gives_gid i (e_op e) = Some (i_gid v) /\ gives_flags i (e_op e) = Some (i_flags v)).
  { intros e j w (pa & t & p & u & gg & -> & <- & <- & <- & <- & -> & _). cbn. rewrite Z.eqb_refl. auto. }
  specialize (Ht (fun e j w b => proj1 (BB e j w b))). specialize (Hp (fun e j w b => proj1 (proj2 (BB e j w b)))). specialize (Hu (fun e j w b => proj1 (proj2 (proj2 (BB e j w b))))).
  specialize (Hg (fun e j w b => proj1 (proj2 (proj2 (proj2 (BB e j w b)))))). specialize (Hf (fun e j w b => proj2 (proj2 (proj2 (proj2 (BB e j w b)))))).
  specialize (Hp (fun e j c w w' f => ef_perm e j c w w' f) es T _ s (fun j => root_has j 493) O C R (first_new i_perm T 493 eq_refl) i v Gv).
  specialize (Hu (fun e j c w w' f => ef_uid e j c w w' f) es T _ s (fun j => root_has j 0) O C R (first_new i_uid T 0 eq_refl) i v Gv).
  specialize (Hg (fun e j c w w' f => ef_gid e j c w w' f) es T _ s (fun j => root_has j 0) O C R (first_new i_gid T 0 eq_refl) i v Gv).
  specialize (Hf (fun e j c w w' f => ef_flags e j c w w' f) es T _ s (fun j => root_has j 0) O C R (first_new i_flags T 0 eq_refl) i v Gv).
  specialize (Ht (fun e j c w w' f => ef_type e j c w w' f) es T _ s (fun j => root_has j Dir) O C R (first_new i_type T Dir eq_refl) i v Gv).
  assert (P : 0 <= i_perm v < 2 ^ 12).
  { apply (last_range es T i (root_has i 493) (i_perm v) C); [|exact Hp]. intros p. unfold root_has. destruct (i =? 1); [|discriminate]. intros E. injection E as <-. lia. }
  destruct (land_lor_type (i_type v) _ P) as (L1 & L2).
  exists (i_type v), (i_perm v). split; [exact Ht|]. split; [exact Hp|]. split; [exact Hu|]. split; [exact Hg|]. split; [exact Hf|].
  split; [reflexivity|]. split; [split; [reflexivity|exact P]|].
  unfold fuse_attr. cbn [g_mode getattr_inode]. rewrite L1, L2.
  assert (K : kind_of (type_bits (i_type v)) = Some (kind_name (i_type v))) by (destruct (i_type v); reflexivity). rewrite K.
  eexists. split; [reflexivity|]. cbn [f_kind f_perm f_uid f_gid f_size f_atime f_mtime f_ctime f_nlink f_rdev].
  repeat (split; [reflexivity|]). split; intros H; apply Z.mod_small; exact H.
Qed.

(** a history to try the theorems on: a file (2) in the root is created, linked, written, its mode is set, read; a directory (3) is made and the
    file moved there; a symbolic link (4) is made *)
Definition at_ (o : op) (t : Z) : event := Ev o t (t + 9) (fun n => t + 1 + Z.of_nat n mod 3).
Definition chmod_ (p : Z) : sattr := SAttr None None None None None (Some p) None None None.
Definition story : list event :=
  [ at_ (Create 1 2 (Reg 17) 420 1001 1002) 100; at_ (Link IGS 1 2) 200; at_ (Write 2 0 8192 8192) 300; at_ (SetAttr 2 (chmod_ 384) 0) 400;
    at_ (Read true 2) 500; at_ (Create 1 3 Dir 493 1001 1002) 600; at_ (Rename 1 3 2 false None) 700; at_ (Create 3 4 (Lnk [47; 97]) 511 7 8) 800 ].
Lemma at_timed o t : timed (at_ o t).
Proof. unfold timed, at_. cbn. split; [lia|]. intros n. pose proof (Z.mod_pos_bound (Z.of_nat n) 3). lia. Qed.
Ltac clocks := cbn [clocked story]; repeat match goal with |- _ /\ _ => split | |- timed _ => apply at_timed | |- True => exact I | |- legal _ => cbn | |- _ = None => reflexivity | |- _ <= _ => cbn; lia | |- _ < _ => cbn; lia | |- _ <> _ => intro; discriminate end.
Lemma story_clocked : clocked 1 story.
Proof. clocks. Qed.
Definition show (s : option fs) (i : Z) : option (option fattr) := match s with Some s => option_map fuse_attr (getattr s i) | None => None end.
Example C92_ex : clocked 1 story /\ show (run (new_fs 1) story) 2 = Some (Some (FAttr 8192 (8192 * 512) 501 301 401 RegularFile 384 2 1001 1002 0 131072)) /\
  show (run (new_fs 1) story) 3 = Some (Some (FAttr 0 0 601 802 802 Directory 493 2 1001 1002 0 4096)) /\
  last_given (gives_perm 2) (root_has 2 493) story = Some 384.
Proof. split; [exact story_clocked|]. vm_compute. auto. Qed.

(** C92: the number of blocks the daemon reports, in units of 512 bytes, is not the space the file uses: it is shifted the wrong way *)
Theorem C92_blocks_refuted : exists T es s i g f, clocked T es /\ run (new_fs T) es = Some s /\ getattr s i = Some g /\ fuse_attr g = Some f /\
  g_bytes g = 8192 /\ f_blocks f * 512 = g_bytes g * 512 * 512.
Proof.
  exists 1, story. destruct (run (new_fs 1) story) as [s|] eqn:E; [|now vm_compute in E].
  exists s, 2. assert (X : getattr s 2 = Some (GAttr 8192 8192 501 301 401 101 33152 2 1001 1002 0 131072 0)).
  { assert (Y : match run (new_fs 1) story with Some s => getattr s 2 | None => None end = Some (GAttr 8192 8192 501 301 401 101 33152 2 1001 1002 0 131072 0)) by (vm_compute; reflexivity). now rewrite E in Y. }
  rewrite X. eexists. eexists. split; [exact story_clocked|]. split; [reflexivity|]. split; [reflexivity|]. split; [vm_compute; reflexivity|]. split; reflexivity.
Qed.
(** C92: the size of a symbolic link is not the length of its target *)
Theorem C92_symlink_size_refuted : exists T es s i g target, clocked T es /\ run (new_fs T) es = Some s /\ getattr s i = Some g /\
  last_given (gives_type i) (root_has i Dir) es = Some (Lnk target) /\ g_size g <> Z.of_nat (length target).
Proof.
  exists 1, story. destruct (run (new_fs 1) story) as [s|] eqn:E; [|now vm_compute in E].
  exists s, 4. assert (X : getattr s 4 = Some (GAttr 0 0 801 801 801 801 41471 1 7 8 0 4096 0)).
  { assert (Y : match run (new_fs 1) story with Some s => getattr s 4 | None => None end = Some (GAttr 0 0 801 801 801 801 41471 1 7 8 0 4096 0)) by (vm_compute; reflexivity). now rewrite E in Y. }
  rewrite X. eexists. exists [47; 97]. split; [exact story_clocked|]. split; [reflexivity|]. split; [reflexivity|]. split; [reflexivity|]. cbn. lia.
Qed.

(** C93: a change of what stat shows of an object, other than its access time, moves its change time past the time before the change; the
    change time is never in the future and never goes back.  Left out: links that are not made in turn, and extended attributes. *)
Lemma ctime_bounds : forall es now lo s s', zm_ok s -> clocked now es -> Forall (fun e => in_turn (e_op e)) es -> lo <= now -> run s es = Some s' ->
  (forall i v, zm_get i s = Some v -> lo <= i_ctime v <= now) -> forall i v, zm_get i s' = Some v -> lo <= i_ctime v <= ends now es.
Proof.
  induction es as [|e es IH]; intros now lo s s' O C F Lo; cbn.
  - intros E H. injection E as <-. exact H.
  - destruct C as (C0 & T & L & C). inversion F as [|? ? F1 F2]; subst. destruct (step s e) as [s1|] eqn:E1; [|discriminate]. intros E H.
    destruct (step_effect _ _ _ O T L E1) as (O1 & S). pose proof (proj1 T) as T0. apply (IH _ lo s1 s' O1 C F2); [lia|exact E|].
    intros i v G. destruct (S _ _ G) as [(v0 & G0 & Ef)|(_ & B)].
    + specialize (H _ _ G0). destruct (ef_c _ _ _ _ _ Ef F1) as [->|D]; [cbn; lia|]. destruct D; lia.
    + destruct B as (? & ? & ? & ? & ? & _ & _ & _ & _ & _ & _ & _ & [] & _). lia.
Qed.
Theorem C93_change_time_partial : forall T before after s0 s i g g', clocked T before -> clocked (ends T before) after ->
  Forall (fun e => in_turn (e_op e)) (before ++ after) ->
  run (new_fs T) before = Some s0 -> run s0 after = Some s -> getattr s0 i = Some g -> getattr s i = Some g' ->
  (same_but_atime g g' \/ ends T before <= g_ctime g') /\
  T <= g_ctime g <= ends T before /\ g_ctime g <= g_ctime g' <= ends (ends T before) after.
Proof.
  intros T before after s0 s i g g' C0 C1 F R0 R1 G G'. apply Forall_app in F as (F0 & F1).
  unfold getattr in *. destruct (zm_get i s0) as [v|] eqn:Gv; [|discriminate]. injection G as <-. destruct (zm_get i s) as [v'|] eqn:Gv'; [|discriminate]. injection G' as <-.
  assert (B0 : forall j w, zm_get j s0 = Some w -> T <= i_ctime w <= ends T before).
  { apply (ctime_bounds before T T (new_fs T) s0 (new_ok T) C0 F0 (Z.le_refl T) R0). intros j w E. apply (first_new i_ctime T T eq_refl) in E. unfold root_has in E. destruct (j =? 1); [|discriminate]. injection E as <-. lia. }
  pose proof (run_ok _ _ _ _ (new_ok T) C0 R0) as O0. pose proof (B0 _ _ Gv) as Bv. pose proof (ends_le _ _ C0) as L0.
  assert (B1 := ctime_bounds after (ends T before) T s0 s O0 C1 F1 L0 R1 B0 _ _ Gv').
  assert (X : v' = set_atime (i_atime v') v \/ ends T before <= i_ctime v').
  { set (t := ends T before) in *. clearbody t. clear B0 R0 C0 B1 L0 F0 Bv.
    assert (W : forall es now s1 s2, t <= now -> zm_ok s1 -> clocked now es -> Forall (fun e => in_turn (e_op e)) es -> run s1 es = Some s2 ->
      (forall w, zm_get i s1 = Some w -> w = set_atime (i_atime w) v \/ t <= i_ctime w) -> forall w, zm_get i s2 = Some w -> w = set_atime (i_atime w) v \/ t <= i_ctime w).
    { induction es as [|e es IH]; intros now s1 s2 Ln O C F; cbn.
      - intros E H. injection E as <-. exact H.
      - destruct C as (C0 & Te & L & C). inversion F as [|? ? Fa Fb]; subst. destruct (step s1 e) as [s3|] eqn:E1; [|discriminate]. intros E H.
        destruct (step_effect _ _ _ O Te L E1) as (O1 & S). apply (IH (e_t1 e) s3 s2); try assumption; [destruct Te; lia|].
        intros w Gw. destruct (S _ _ Gw) as [(w0 & G0 & Ef)|(_ & B)].
        + destruct (ef_c _ _ _ _ _ Ef Fa) as [->|D]; [|right; destruct D; lia].
          destruct (H _ G0) as [->|H2]; [left; reflexivity|right; exact H2].
        + right. destruct B as (? & ? & ? & ? & ? & _ & _ & _ & _ & _ & _ & _ & [] & _). lia. }
    apply (W after t s0 s (Z.le_refl t) O0 C1 F1 R1); [|exact Gv']. intros w E. left. rewrite Gv in E. injection E as <-. destruct v; reflexivity. }
  split; [|split; [exact Bv|]].
  - destruct X as [->|X]; [left|right; exact X]. unfold same_but_atime. cbn. tauto.
  - split; [|exact (proj2 B1)]. destruct X as [->|X]; [cbn; lia|]. cbn. lia.
Qed.
Example C93_ex : exists s0 s g g', run (new_fs 1) (firstn 3 story) = Some s0 /\ run s0 (skipn 3 story) = Some s /\ getattr s0 2 = Some g /\ getattr s 2 = Some g' /\
  g_mode g <> g_mode g' /\ ends 1 (firstn 3 story) = 309 /\ g_ctime g = 301 /\ g_ctime g' = 401.
Proof.
  do 4 eexists. split; [vm_compute; reflexivity|]. split; [vm_compute; reflexivity|]. split; [vm_compute; reflexivity|]. split; [vm_compute; reflexivity|]. split; [vm_compute; intro H; inversion H|]. vm_compute. auto.
Qed.

(** C93: the modification time moves when, and only when, the contents change or a client sets it *)
Theorem C93_modification_time : forall T es s e s' i g g', clocked T es -> run (new_fs T) es = Some s -> timed e -> legal (e_op e) -> step s e = Some s' ->
  getattr s i = Some g -> getattr s' i = Some g' ->
  match asked_mtime (e_op e) i with
  | Some t => g_mtime g' = t
  | None => (contents_of s (e_op e) i -> during e (g_mtime g') /\ during e (g_ctime g')) /\ (~ contents_of s (e_op e) i -> g_mtime g' = g_mtime g)
  end.
Proof.
  intros T es s e s' i g g' C R Te L E G G'. pose proof (run_ok _ _ _ _ (new_ok T) C R) as O. destruct (step_effect _ _ _ O Te L E) as (O1 & S).
  unfold getattr in *. destruct (zm_get i s) as [v|] eqn:Gv; [|discriminate]. injection G as <-. destruct (zm_get i s') as [v'|] eqn:Gv'; [|discriminate]. injection G' as <-.
  destruct (S _ _ Gv') as [(w & Gw & Ef)|(K & _)]; [|congruence]. rewrite Gv in Gw. injection Gw as <-. pose proof (ef_m _ _ _ _ _ Ef) as M. cbn.
  destruct (asked_mtime (e_op e) i); [exact M|]. rewrite <- contb_spec. destruct (contb s (e_op e) i); split; intros H; try congruence; try exact M.
Qed.
Example C93_mtime_ex : exists s s' g g', run (new_fs 1) (firstn 2 story) = Some s /\ step s (at_ (Write 2 0 8192 8192) 300) = Some s' /\
  contents_of s (Write 2 0 8192 8192) 2 /\ getattr s 2 = Some g /\ getattr s' 2 = Some g' /\ g_mtime g = 101 /\ g_mtime g' = 301 /\
  ~ contents_of s (Write 2 0 8192 8192) 1.
Proof. do 4 eexists. split; [vm_compute; reflexivity|]. split; [vm_compute; reflexivity|]. split; [reflexivity|]. split; [vm_compute; reflexivity|]. split; [vm_compute; reflexivity|]. cbn. repeat split; try discriminate. Qed.

(** C93: the access time moves when a file is read with access times on, or a client sets it, and at no other time *)
Theorem C93_access_time : forall T es s e s' i g g', clocked T es -> run (new_fs T) es = Some s -> timed e -> legal (e_op e) -> step s e = Some s' ->
  getattr s i = Some g -> getattr s' i = Some g' ->
  match asked_atime (e_op e) i with
  | Some t => g_atime g' = t
  | None => (e_op e = Read true i -> during e (g_atime g')) /\ (e_op e <> Read true i -> g_atime g' = g_atime g)
  end.
Proof.
  intros T es s e s' i g g' C R Te L E G G'. pose proof (run_ok _ _ _ _ (new_ok T) C R) as O. destruct (step_effect _ _ _ O Te L E) as (O1 & S).
  unfold getattr in *. destruct (zm_get i s) as [v|] eqn:Gv; [|discriminate]. injection G as <-. destruct (zm_get i s') as [v'|] eqn:Gv'; [|discriminate]. injection G' as <-.
  destruct (S _ _ Gv') as [(w & Gw & Ef)|(K & _)]; [|congruence]. rewrite Gv in Gw. injection Gw as <-. pose proof (ef_a _ _ _ _ _ Ef) as M. cbn.
  destruct (asked_atime (e_op e) i); [exact M|]. split.
  - intros K. rewrite K in M. now rewrite Z.eqb_refl in M.
  - intros K. destruct (e_op e) as [| | | | | | | |[|] j| | |]; try exact M. destruct (Z.eqb_spec i j) as [->|]; [congruence|exact M].
Qed.
Example C93_atime_ex : exists s s' g g', run (new_fs 1) (firstn 4 story) = Some s /\ step s (at_ (Read true 2) 500) = Some s' /\
  getattr s 2 = Some g /\ getattr s' 2 = Some g' /\ g_atime g = 101 /\ g_atime g' = 501.
Proof. do 4 eexists. split; [vm_compute; reflexivity|]. split; [vm_compute; reflexivity|]. split; [vm_compute; reflexivity|]. split; [vm_compute; reflexivity|]. cbn. auto. Qed.

(** C93: listing a directory with access times on leaves its access time, and setting an extended attribute leaves the change time *)
Theorem C93_listing_and_extended_refuted : exists T es s, clocked T es /\ run (new_fs T) es = Some s /\
  (forall t g, getattr s 1 = Some g -> exists s', step s (at_ (List_ true 1) t) = Some s' /\ getattr s' 1 = Some g) /\
  (forall t g, getattr s 2 = Some g -> exists s', step s (at_ (SetExt 2) t) = Some s' /\ getattr s' 2 = Some g) /\ getattr s 1 <> None /\ getattr s 2 <> None.
Proof.
  exists 1, story. destruct (run (new_fs 1) story) as [s|] eqn:E; [|now vm_compute in E]. exists s. split; [exact story_clocked|]. split; [reflexivity|].
  split; [intros t g G; exists s; auto|]. split; [intros t g G; exists s; auto|].
  assert (Y : match run (new_fs 1) story with Some s => match getattr s 1, getattr s 2 with Some _, Some _ => true | _, _ => false end | None => false end = true) by (vm_compute; reflexivity).
  rewrite E in Y. destruct (getattr s 1), (getattr s 2); try discriminate; split; discriminate.
Qed.

(** C94: after link the file has one link more and a new change time.  Proved for one order of the two concurrent updates of the file *)
Theorem C94_link_partial : forall s e s' parent i g, zm_ok s -> timed e -> parent <> i -> e_op e = Link IGS parent i -> step s e = Some s' ->
  getattr s i = Some g -> 0 <= g_nlink g < 2 ^ 64 - 1 -> exists g', getattr s' i = Some g' /\ g_nlink g' = g_nlink g + 1 /\ during e (g_ctime g').
Proof.
  intros s e s' parent i g O [_ T] N Eo E G B. unfold step in E. rewrite Eo in E. unfold link in E. unfold getattr in G |- *.
  destruct (zm_get i s) as [v|]; [|discriminate]. injection G as <-. cbn in B.
  destruct (setattr_get _ _ _ _ _ (zm_ok_set _ _ _ O) E) as (O1 & p & Gp & H). rewrite H, (proj2 (Z.eqb_neq i parent)) by congruence.
  rewrite zm_get_set, Z.eqb_refl by exact O. eexists. split; [reflexivity|]. cbn -[u64]. split; [apply Z.mod_small; lia|apply T].
Qed.
Example C94_ex : exists s s' g g', run (new_fs 1) (firstn 1 story) = Some s /\ step s (at_ (Link IGS 1 2) 200) = Some s' /\
  getattr s 2 = Some g /\ getattr s' 2 = Some g' /\ g_nlink g = 1 /\ g_nlink g' = 2 /\ g_ctime g' = 201.
Proof. do 4 eexists. split; [vm_compute; reflexivity|]. split; [vm_compute; reflexivity|]. split; [vm_compute; reflexivity|]. split; [vm_compute; reflexivity|]. cbn. auto. Qed.

(** C94: in another order the new link is not counted, and removing either of the two names destroys the file; in a third the change time stays *)
Theorem C94_link_refuted :
  (exists T es s, clocked T es /\ run (new_fs T) es = Some s /\ map e_op es = [Create 1 2 (Reg 17) 420 0 0; Link GIS 1 2; Unlink false 1 2] /\ getattr s 2 = None) /\
  (exists T es s g, clocked T es /\ run (new_fs T) es = Some s /\ map e_op es = [Create 1 2 (Reg 17) 420 0 0; Link GSI 1 2] /\ getattr s 2 = Some g /\
     g_nlink g = 2 /\ g_ctime g < e_t0 (nth 1 es (at_ (Gone 0) 0))).
Proof.
  split.
  - exists 1, [at_ (Create 1 2 (Reg 17) 420 0 0) 100; at_ (Link GIS 1 2) 200; at_ (Unlink false 1 2) 300]. eexists.
    split; [clocks|]. split; [vm_compute; reflexivity|]. split; reflexivity.
  - exists 1, [at_ (Create 1 2 (Reg 17) 420 0 0) 100; at_ (Link GSI 1 2) 200]. eexists. eexists.
    split; [clocks|]. split; [vm_compute; reflexivity|]. split; [reflexivity|].
    split; [vm_compute; reflexivity|]. split; reflexivity.
Qed.

Print Assumptions C92_attributes.
Print Assumptions C92_blocks_refuted.
Print Assumptions C92_symlink_size_refuted.
Print Assumptions C93_change_time_partial.
Print Assumptions C93_modification_time.
Print Assumptions C93_access_time.
Print Assumptions C93_listing_and_extended_refuted.
Print Assumptions C94_link_partial.
Print Assumptions C94_link_refuted.
