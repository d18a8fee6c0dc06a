(** C110: commands given several properties, data sets or devices. *)
From Coq Require Import String.
From Verif Require Import Common Prop_Model Prop_Props Args_Model.
From Coq Require Import List.
Import ListNotations.
Open Scope Z_scope.

(** * Specification *)

(** how a user writes a property, and several *)
Definition written (p : property) : text := assignment (show_name (name_of p)) (show_prop p).
Fixpoint commas (ws : list text) : text :=
  match ws with [] => [] | [w] => w | w :: r => w ++ COMMA :: commas r end.
Definition settable (p : property) : Prop :=
  match p with Atime _ | Mountpoint _ => True | RecordSize i => 12 <= i <= 19 | _ => False end.

(** requests carried out one after the other, all with success *)
Inductive all_done {S X E} (f : S -> X -> S * option E) : S -> list X -> S -> Prop :=
| done_nil s : all_done f s [] s
| done_cons s x s1 r s2 : f s x = (s1, None) -> all_done f s1 r s2 -> all_done f s (x :: r) s2.

(** * Splitting *)

Lemma split_all_some c s : split_all c s <> [].
Proof. induction s as [|x s IH]; cbn [split_all]; [discriminate|]. destruct (x =? c); [discriminate|]. destruct (split_all c s); discriminate. Qed.
Lemma split_all_app c a b : ~ In c a -> split_all c (a ++ c :: b) = a :: split_all c b.
Proof.
  induction a as [|x a IH]; intros N; cbn [app split_all]; [now rewrite Z.eqb_refl|].
  destruct (Z.eqb_spec x c) as [->|D]; [exfalso; apply N; now left|]. rewrite IH; [reflexivity|]. intros H. apply N. now right.
Qed.
Lemma split_all_none c a : ~ In c a -> split_all c a = [a].
Proof.
  induction a as [|x a IH]; intros N; cbn [split_all]; [reflexivity|].
  destruct (Z.eqb_spec x c) as [->|D]; [exfalso; apply N; now left|]. rewrite IH; [reflexivity|]. intros H. apply N. now right.
Qed.
Lemma split_commas ws : ws <> [] -> Forall (fun w => ~ In COMMA w) ws -> split_all COMMA (commas ws) = ws.
Proof.
  intros N F. induction F as [|w ws W F IH]; [congruence|]. destruct ws as [|v ws]; cbn [commas]; [now apply split_all_none|].
  rewrite split_all_app by exact W. f_equal. apply IH. discriminate.
Qed.

Lemma name_no_comma n : ~ In COMMA (show_name n).
Proof. destruct n; vm_compute; intuition discriminate. Qed.
Lemma written_no_comma p : settable p -> (forall m, p = Mountpoint m -> ~ In COMMA m) -> ~ In COMMA (written p).
Proof.
  intros S M I. unfold written, assignment in I. apply in_app_or in I. destruct I as [I|[I|I]]; [exact (name_no_comma _ I)|discriminate|].
  destruct p as [b|s|s|s|i]; cbn [settable] in S.
  - destruct b; vm_compute in I; intuition discriminate.
  - easy.
  - exact (M s eq_refl I).
  - easy.
  - assert (Hi : In i [12; 13; 14; 15; 16; 17; 18; 19]) by (cbn [In]; lia). clear S M.
    repeat (destruct Hi as [<-|Hi]; [vm_compute in I; intuition discriminate|]). destruct Hi.
Qed.
Lemma parse_written ps : Forall settable ps -> parse_words (map written ps) = Some ps.
Proof.
  induction 1 as [|p ps H F IH]; [reflexivity|]. cbn [map parse_words]. unfold written at 1. rewrite C43_print_parse_partial by (destruct p; exact H).
  rewrite IH. reflexivity.
Qed.
Lemma words_read ps : ps <> [] -> Forall settable ps -> Forall (fun p => forall m, p = Mountpoint m -> ~ In COMMA m) ps ->
  parse_words (split_all COMMA (commas (map written ps))) = Some ps.
Proof.
  intros N F M. rewrite split_commas.
  - now apply parse_written.
  - destruct ps; [congruence|discriminate].
  - apply Forall_map. pose proof (proj1 (Forall_forall _ _) F) as FF. pose proof (proj1 (Forall_forall _ _) M) as MM. apply Forall_forall. intros p I. apply written_no_comma; [exact (FF p I)|exact (MM p I)].
Qed.

(** * One after the other *)

Lemma each_ok {S X E} (f : S -> X -> S * option E) xs : forall s s', each f s xs = (s', None) <-> all_done f s xs s'.
Proof.
  induction xs as [|x xs IH]; intros s s'; cbn [each].
  - split; [injection 1 as <-; constructor|inversion 1; reflexivity].
  - destruct (f s x) as [s1 [e|]] eqn:Q.
    + split; [discriminate|]. inversion 1; congruence.
    + rewrite IH. split; [intros D; econstructor; eauto|]. inversion 1; subst. congruence.
Qed.
Lemma each_err {S X E} (f : S -> X -> S * option E) xs : forall s s' e, each f s xs = (s', Some e) <->
  exists a x b s1, xs = a ++ x :: b /\ all_done f s a s1 /\ f s1 x = (s', Some e).
Proof.
  induction xs as [|x xs IH]; intros s s' e; cbn [each].
  - split; [discriminate|]. intros ([|? ?] & ? & ? & ? & Q & _); discriminate.
  - destruct (f s x) as [s1 [e1|]] eqn:Q.
    + split.
      * injection 1 as <- <-. exists [], x, xs, s. split; [reflexivity|]. split; [constructor|exact Q].
      * intros ([|y a] & z & b & t & L & D & R); cbn [app] in L.
        -- inversion D; subst. congruence.
        -- inversion D; subst. congruence.
    + rewrite IH. split.
      * intros (a & z & b & t & -> & D & R). exists (x :: a), z, b, t. split; [reflexivity|]. split; [econstructor; eauto|exact R].
      * intros ([|y a] & z & b & t & L & D & R); cbn [app] in L.
        -- inversion D; subst. congruence.
        -- injection L as <- ->. inversion D as [|? ? s2 ? ? Q2 D2]; subst. exists a, z, b, t. replace s1 with s2 by congruence. auto.
Qed.

Section S.
Context {S E : Type}.
Context (fs_set fs_create : S -> text -> list property -> S * option E)
  (fs_mount : S -> text -> S * option E)
  (as_uuid : text -> option Z)
  (pool_fault : S -> device -> S * option E).

(** [fs set] succeeds exactly if all data sets were given all the properties, in the order in which they are written. *)
Theorem C110_set_partial ps ds s s' : ps <> [] -> Forall settable ps -> Forall (fun p => forall m, p = Mountpoint m -> ~ In COMMA m) ps ->
  set_cmd fs_set s (commas (map written ps)) ds = (s', Ended None) <-> all_done (fun s d => fs_set s d ps) s ds s'.
Proof.
  intros N F M. unfold set_cmd. rewrite words_read by assumption. rewrite <- each_ok.
  destruct (each _ s ds) as [t e]. split; [congruence|]. congruence.
Qed.

(** If it fails, the data sets before one have been changed and those behind it have not. *)
Theorem C110_set_fails ps ds s s' e : ps <> [] -> Forall settable ps -> Forall (fun p => forall m, p = Mountpoint m -> ~ In COMMA m) ps ->
  set_cmd fs_set s (commas (map written ps)) ds = (s', Ended (Some e)) <->
  exists a d b s1, ds = a ++ d :: b /\ all_done (fun s d => fs_set s d ps) s a s1 /\ fs_set s1 d ps = (s', Some e).
Proof.
  intros N F M. unfold set_cmd. rewrite words_read by assumption. rewrite <- (each_err (fun s d => fs_set s d ps)).
  destruct (each _ s ds) as [t e']. split; congruence.
Qed.

(** Nothing is requested if one of the properties cannot be read. *)
Theorem C110_refused arg ds opts name s w :
  (In w (split_all COMMA arg) -> (forall p, parse_prop w <> POk p) -> set_cmd fs_set s arg ds = (s, Refused)) /\
  (forall o, In o opts -> In w (split_all COMMA o) -> (forall p, parse_prop w <> POk p) -> create_cmd fs_create s opts name = (s, Refused)).
Proof.
  assert (X : forall ws, In w ws -> (forall p, parse_prop w <> POk p) -> parse_words ws = None).
  { induction ws as [|v ws IH]; intros I N; [easy|]. cbn [parse_words]. destruct I as [->|I].
    - destruct (parse_prop w) eqn:Q; [destruct (N _ eq_refl)|reflexivity].
    - rewrite (IH I N). now destruct (parse_prop v). }
  split.
  - intros I N. unfold set_cmd. now rewrite X.
  - intros o O I N. unfold create_cmd. rewrite X; [reflexivity| |exact N]. apply in_flat_map. eauto.
Qed.

(** [fs create] passes on all the properties of all its options. *)
Theorem C110_create_partial pss name s : Forall (fun ps => ps <> []) pss -> Forall settable (concat pss) ->
  Forall (fun p => forall m, p = Mountpoint m -> ~ In COMMA m) (concat pss) ->
  create_cmd fs_create s (map (fun ps => commas (map written ps)) pss) name =
  (fst (fs_create s name (concat pss)), Ended (snd (fs_create s name (concat pss)))).
Proof.
  intros N F M. unfold create_cmd.
  assert (Q : flat_map (split_all COMMA) (map (fun ps => commas (map written ps)) pss) = map written (concat pss)).
  { revert F M. induction N as [|ps pss Np N IH]; intros F M; [reflexivity|]. cbn [concat map flat_map] in *. apply Forall_app in F, M. destruct F as [F1 F2], M as [M1 M2].
    rewrite IH, map_app by assumption. f_equal. apply split_commas.
    - destruct ps; [congruence|discriminate].
    - apply Forall_map. pose proof (proj1 (Forall_forall _ _) F1) as FF. pose proof (proj1 (Forall_forall _ _) M1) as MM. apply Forall_forall. intros p I. apply written_no_comma; [exact (FF p I)|exact (MM p I)]. }
  rewrite Q, parse_written by exact F. destruct (fs_create s name (concat pss)); reflexivity.
Qed.

(** [pool fault] succeeds exactly if every device was faulted, each by its identifier if it is one. *)
Theorem C110_fault ds s s' :
  fault_cmd as_uuid pool_fault s ds = (s', Ended None) <->
  all_done pool_fault s (map (fun d => match as_uuid d with Some u => ByUuid u | None => ByPath d end) ds) s'.
Proof.
  unfold fault_cmd. rewrite <- each_ok.
  assert (X : forall t, each (fun s d => pool_fault s match as_uuid d with Some u => ByUuid u | None => ByPath d end) t ds =
    each pool_fault t (map (fun d => match as_uuid d with Some u => ByUuid u | None => ByPath d end) ds)).
  { induction ds as [|d ds IH]; intros t; cbn [each map]; [reflexivity|]. destruct (pool_fault t _) as [t1 [e|]]; [reflexivity|apply IH]. }
  rewrite X. destruct (each _ s _). split; congruence.
Qed.

(** A mountpoint with a comma is cut at it, whatever the daemon does, and what follows is taken for properties. *)
Theorem C110_comma_refuted a b d s : ~ In COMMA a ->
  let arg := written (Mountpoint (a ++ COMMA :: b)) in
  set_cmd fs_set s arg [d] = match parse_words (split_all COMMA b) with
                             | None => (s, Refused)
                             | Some more => (fst (fs_set s d (Mountpoint a :: more)), Ended (snd (fs_set s d (Mountpoint a :: more))))
                             end.
Proof.
  intros N arg. unfold set_cmd, arg, written, assignment. cbn [name_of show_prop].
  replace (show_name NMountpoint ++ EQUALS :: a ++ COMMA :: b) with ((show_name NMountpoint ++ EQUALS :: a) ++ COMMA :: b) by now rewrite <- app_assoc.
  rewrite split_all_app.
  2: { intros I. apply in_app_or in I. destruct I as [I|[I|I]]; [exact (name_no_comma _ I)|discriminate|exact (N I)]. }
  cbn [parse_words]. change (show_name NMountpoint ++ EQUALS :: a) with (assignment (show_name NMountpoint) a). rewrite parse_assignment.
  destruct (parse_words (split_all COMMA b)) as [more|]; [|reflexivity]. cbn [each]. destruct (fs_set s d _) as [t [e|]]; reflexivity.
Qed.

(** Options of [fs mount] do nothing, not even if they are not properties. *)
Theorem C110_mount_options_refuted opts opts' name s : mount_cmd fs_mount s opts name = mount_cmd fs_mount s opts' name.
Proof. reflexivity. Qed.

(** Failing is not undone: whenever one data set can be changed and the next not, the command fails with the first
    one changed. *)
Theorem C110_all_or_nothing_refuted ps s s1 s2 e d1 d2 : ps <> [] -> Forall settable ps ->
  Forall (fun p => forall m, p = Mountpoint m -> ~ In COMMA m) ps ->
  fs_set s d1 ps = (s1, None) -> fs_set s1 d2 ps = (s2, Some e) -> set_cmd fs_set s (commas (map written ps)) [d1; d2] = (s2, Ended (Some e)).
Proof.
  intros N F M A B. apply C110_set_fails; auto. exists [d1], d2, [], s1. split; [reflexivity|]. split; [|exact B].
  econstructor; [exact A|constructor].
Qed.
End S.

(** a daemon that knows the data sets p and q, and remembers what was set *)
Definition toy (s : list (text * list property)) (d : text) (ps : list property) : list (text * list property) * option Z :=
  if text_eqb d (str "p") || text_eqb d (str "q") then (s ++ [(d, ps)], None) else (s, Some 2).
Example C110_ex_set : set_cmd toy [] (str "atime=off,recordsize=65536") [str "p"; str "q"] =
  ([(str "p", [Atime false; RecordSize 16]); (str "q", [Atime false; RecordSize 16])], Ended None).
Proof. reflexivity. Qed.
Example C110_ex_written : commas (map written [Atime false; RecordSize 16]) = str "atime=off,recordsize=65536".
Proof. reflexivity. Qed.
Example C110_ex_fails : set_cmd toy [] (str "atime=off") [str "p"; str "r"; str "q"] = ([(str "p", [Atime false])], Ended (Some 2)).
Proof. reflexivity. Qed.
Example C110_ex_refused : set_cmd toy [] (str "atime=off,size=3") [str "p"] = ([], Refused).
Proof. reflexivity. Qed.
Example C110_ex_create : create_cmd toy [] [str "atime=off"; str "mountpoint=/a,recordsize=4096"] (str "q") =
  ([(str "q", [Atime false; Mountpoint (str "/a"); RecordSize 12])], Ended None).
Proof. reflexivity. Qed.
Example C110_ex_comma : set_cmd toy [] (written (Mountpoint (str "/a,atime"))) [str "p"] =
  ([(str "p", [Mountpoint (str "/a"); Atime true])], Ended None).
Proof. reflexivity. Qed.

Print Assumptions C110_set_partial.
Print Assumptions C110_set_fails.
Print Assumptions C110_refused.
Print Assumptions C110_create_partial.
Print Assumptions C110_fault.
Print Assumptions C110_comma_refuted.
Print Assumptions C110_mount_options_refuted.
Print Assumptions C110_all_or_nothing_refuted.
