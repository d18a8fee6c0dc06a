(** C43-C45: properties and data set names. *)
From Verif Require Import Common Prop_Model.
From Coq Require Import String Ascii.
Open Scope Z_scope.

(** * Basic facts about texts *)

Lemma text_eqb_eq a : forall b, text_eqb a b = true <-> a = b.
Proof.
  induction a as [|x a IH]; intros [|y b]; cbn [text_eqb]; split; intros H; try easy.
  - apply andb_prop in H. destruct H as [H1 H2]. apply IH in H2. apply Z.eqb_eq in H1. congruence.
  - injection H as -> ->. rewrite Z.eqb_refl. cbn. now apply IH.
Qed.

Lemma text_eqb_refl a : text_eqb a a = true.
Proof. now apply text_eqb_eq. Qed.

Lemma split_once_app c a b : ~ In c a -> split_once c (a ++ c :: b) = (a, Some b).
Proof.
  induction a as [|x a IH]; intros H; cbn [app split_once].
  - now rewrite Z.eqb_refl.
  - destruct (Z.eqb_spec x c) as [E|_]; [exfalso; apply H; now left|].
    rewrite IH; [reflexivity|]. intros Hc; apply H; now right.
Qed.

Lemma split_once_none c a : ~ In c a -> split_once c a = (a, None).
Proof.
  induction a as [|x a IH]; intros H; cbn [split_once]; [reflexivity|].
  destruct (Z.eqb_spec x c) as [E|_]; [exfalso; apply H; now left|].
  rewrite IH; [reflexivity|]. intros Hc; apply H; now right.
Qed.

Lemma split_once_inv c s a b : split_once c s = (a, Some b) -> s = a ++ c :: b /\ ~ In c a.
Proof.
  revert a b. induction s as [|x s IH]; intros a b H; cbn [split_once] in H; [easy|].
  destruct (Z.eqb_spec x c) as [->|Hx].
  - injection H as <- <-. now split.
  - destruct (split_once c s) as [a' b'] eqn:E. injection H as <- ->.
    destruct (IH a' b eq_refl) as [-> Hn]. split; [reflexivity|]. intros [?|?]; [lia|auto].
Qed.

(** * C43 *)

Definition assignment (name value : text) : text := name ++ EQUALS :: value.

Lemma show_name_no_eq n : ~ In EQUALS (show_name n).
Proof. destruct n; vm_compute; intuition discriminate. Qed.

Lemma parse_show_name n : parse_name (show_name n) = Some n.
Proof. destruct n; reflexivity. Qed.

Lemma parse_assignment n v : parse_prop (assignment (show_name n) v) =
  match n with
  | NAtime =>
      if text_eqb v (str "true") || text_eqb v (str "on") then POk (Atime true)
      else if text_eqb v (str "false") || text_eqb v (str "off") then POk (Atime false)
      else PErr (EValue v)
  | NBaseMountpoint | NName => PErr EReadOnly
  | NMountpoint => POk (Mountpoint v)
  | NRecordSize =>
      match parse_usize v with
      | Some rs => match recsize_lut rs with Some i => POk (RecordSize i) | None => PErr (EValue v) end
      | None => PErr (EValue v)
      end
  end.
Proof.
  unfold parse_prop, assignment. rewrite split_once_app by apply show_name_no_eq.
  rewrite parse_show_name. destruct n; reflexivity.
Qed.

(** Every property a user can set, except the largest record size, survives being
    printed as [name=value] and parsed again. *)
Theorem C43_print_parse_partial p :
  match p with
  | Atime _ | Mountpoint _ => True
  | RecordSize i => 12 <= i <= 19
  | BaseMountpoint _ | Name _ => False
  end -> parse_prop (assignment (show_name (name_of p)) (show_prop p)) = POk p.
Proof.
  intros H. rewrite parse_assignment. destruct p as [b|s|s|s|i]; cbn [name_of].
  - destruct b; reflexivity.
  - easy.
  - reflexivity.
  - easy.
  - assert (Hi : In i [12; 13; 14; 15; 16; 17; 18; 19]) by (cbn [In]; lia).
    clear H. repeat (destruct Hi as [<-|Hi]; [reflexivity|]). destruct Hi.
Qed.

(** The number a decimal text denotes. *)
Fixpoint denotes (s : text) (acc : Z) : Z :=
  match s with [] => acc | c :: r => denotes r (acc * 10 + (c - 48)) end.
Definition digits_only (s : text) : Prop := s <> [] /\ Forall (fun c => 48 <= c <= 57) s.

Lemma parse_digits_ok s : Forall (fun c => 48 <= c <= 57) s -> forall acc x, parse_digits s acc = Some x -> x = denotes s acc.
Proof.
  induction 1 as [|c r Hc _ IH]; intros acc x E; cbn [parse_digits denotes] in *; [congruence|].
  destruct ((48 <=? c) && (c <=? 57)); [|discriminate].
  destruct (acc * 10 + (c - 48) <? 2^64); [auto|discriminate].
Qed.

Lemma parse_digits_lt s : Forall (fun c => 48 <= c <= 57) s -> forall acc, 0 <= acc -> denotes s acc < 2^64 -> parse_digits s acc = Some (denotes s acc).
Proof.
  induction 1 as [|c r Hc Hr IH]; intros acc Ha E; cbn [parse_digits denotes] in *; [congruence|].
  assert (M : forall s a, Forall (fun c => 48 <= c <= 57) s -> 0 <= a -> a <= denotes s a).
  { clear. induction s as [|c r IH]; intros a F Ha; cbn [denotes]; [lia|].
    inversion_clear F as [|? ? Hc Hr]. specialize (IH (a * 10 + (c - 48)) Hr). lia. }
  specialize (M r (acc * 10 + (c - 48)) Hr ltac:(lia)).
  destruct ((48 <=? c) && (c <=? 57)) eqn:B; [|lia].
  destruct (Z.ltb_spec (acc * 10 + (c - 48)) (2^64)); [|lia]. apply IH; lia.
Qed.

(** Which record sizes are accepted: the powers of two from 4 KiB to 512 KiB, in
    any decimal notation, with exactly that exponent; and 1048776. *)
Theorem C43_record_sizes_partial v r :
  digits_only v -> denotes v 0 < 2^64 ->
  parse_prop (assignment (show_name NRecordSize) v) = r ->
  match r with
  | POk p => exists i, p = RecordSize i /\ ((12 <= i <= 19 /\ denotes v 0 = 2^i) \/ (i = 20 /\ denotes v 0 = 1048776))
  | PErr _ => (forall i, 12 <= i <= 19 -> denotes v 0 <> 2^i)
  end.
Proof.
  intros [Hn Hd] Hlt <-. rewrite parse_assignment.
  assert (E : parse_usize v = Some (denotes v 0)).
  { destruct v as [|c r]; [easy|]. unfold parse_usize. inversion_clear Hd as [|? ? Hc Hr].
    destruct (Z.eqb_spec c 43); [lia|]. apply parse_digits_lt; auto; lia. }
  rewrite E. set (x := denotes v 0). clearbody x. clear.
  unfold recsize_lut.
  repeat match goal with
  | |- context[x =? ?c] =>
      destruct (Z.eqb_spec x c) as [->|?];
      [eexists; split; [reflexivity|]; first [left; split; [lia|reflexivity]|right; split; reflexivity]|]
  end.
  intros i Hi Ex. assert (Hin : In i [12; 13; 14; 15; 16; 17; 18; 19]) by (cbn [In]; lia).
  repeat (destruct Hin as [<-|Hin]; [vm_compute in Ex; lia|]). destruct Hin.
Qed.

(** The documented megabyte record size is rejected, and a number that is not a
    power of two is accepted in its place; what is then printed is not accepted. *)
Theorem C43_record_size_refuted :
  (exists e, parse_prop (str "recordsize=1048576") = PErr e) /\
  parse_prop (str "recordsize=1048776") = POk (RecordSize 20) /\
  (exists e, parse_prop (assignment (show_name NRecordSize) (show_prop (RecordSize 20))) = PErr e).
Proof. split; [|split]; vm_compute; eauto. Qed.

(** Names of properties survive printing and parsing; so do the sources a
    data set's own property can have, but the pseudo-source "none" and distances
    of more than one level do not. *)
Theorem C43_names_and_sources n s :
  parse_name (show_name n) = Some n /\
  (s = SDefault \/ s = SSet 0 \/ s = SSet 1 -> parse_source (show_source s) = Some s).
Proof. split; [apply parse_show_name|]. intros [->|[->| ->]]; reflexivity. Qed.

Theorem C43_sources_refuted :
  parse_source (show_source SNone) <> Some SNone /\ (forall i, 1 < i -> parse_source (show_source (SSet i)) <> Some (SSet i)).
Proof.
  split; [discriminate|]. intros i Hi. destruct i as [|p|p]; [lia| |lia]. cbn. intros [= H]. lia.
Qed.

Example C43_case : parse_prop (str "recsize=+0065536") = POk (RecordSize 16) /\ parse_prop (str "mountpoint=/a=b") = POk (Mountpoint (str "/a=b")).
Proof. split; reflexivity. Qed.

(** * C44 *)

(** [up par t k a]: [a] is the ancestor of [t] [k] levels above it. *)
Inductive up (par : Z -> option Z) : Z -> nat -> Z -> Prop :=
| up_here t : up par t 0 t
| up_more t t' k a : par t = Some t' -> up par t' k a -> up par t (S k) a.

(** Where the effective value of a property is found. *)
Definition nearest (par : Z -> option Z) (props : Z -> pname -> option property) (t : Z) (n : pname) (k : nat) (p : property) : Prop :=
  exists a, up par t k a /\ props a n = Some p /\ forall j b, (j < k)%nat -> up par t j b -> props b n = None.
Definition nowhere (par : Z -> option Z) (props : Z -> pname -> option property) (t : Z) (n : pname) (k : nat) : Prop :=
  exists r, up par t k r /\ par r = None /\ forall j b, up par t j b -> props b n = None.

Lemma loop_found par props bld n d k : forall t a p lvl, up par t k a -> props a n = Some p ->
  (forall j b, (j < k)%nat -> up par t j b -> props b n = None) -> 0 <= lvl -> lvl + Z.of_nat k <= 255 ->
  forall fuel, (k < fuel)%nat -> get_prop_loop par props bld fuel t n d lvl = Some (p, SSet (lvl + Z.of_nat k)).
Proof.
  induction k as [|k IH]; intros t a p lvl U P N H0 H fuel Hf; inversion U; subst; (destruct fuel as [|fuel]; [lia|]); cbn [get_prop_loop].
  - rewrite P. do 2 f_equal. f_equal. lia.
  - rewrite (N 0%nat t); [|lia|constructor]. rewrite H2. destruct (Z.eqb_spec lvl 255); [lia|].
    rewrite (IH t' a p (lvl + 1)); auto; [|intros j b Hj Ub; apply (N (S j) b); [lia|econstructor; eauto]|lia|lia|lia].
    do 2 f_equal. f_equal. lia.
Qed.

Lemma loop_default par props bld n d k : forall t r lvl, up par t k r -> par r = None ->
  (forall j b, up par t j b -> props b n = None) -> 0 <= lvl -> lvl + Z.of_nat k <= 255 ->
  forall fuel, (k < fuel)%nat -> get_prop_loop par props bld fuel t n d lvl = Some (d, SDefault).
Proof.
  induction k as [|k IH]; intros t r lvl U P N H0 H fuel Hf; inversion U; subst; (destruct fuel as [|fuel]; [lia|]); cbn [get_prop_loop].
  - rewrite (N 0%nat r) by constructor. now rewrite P.
  - rewrite (N 0%nat t) by constructor. rewrite H2. destruct (Z.eqb_spec lvl 255); [lia|].
    eapply IH; eauto; [|lia|lia|lia]. intros j b Ub; apply (N (S j) b); econstructor; eauto.
Qed.

(** Within 255 levels, the value comes from the nearest ancestor that sets it, and
    the source is its distance; if none sets it, it is the default. *)
Theorem C44_inheritance_partial par props bld t n d :
  default_value n = Some d ->
  (forall k p, nearest par props t n k p -> (k <= 255)%nat -> forall fuel, (k < fuel)%nat ->
     get_prop_configurable par props bld fuel t n = Some (p, SSet (Z.of_nat k))) /\
  (forall k, nowhere par props t n k -> (k <= 255)%nat -> forall fuel, (k < fuel)%nat ->
     get_prop_configurable par props bld fuel t n = Some (d, SDefault)).
Proof.
  intros D. unfold get_prop_configurable. rewrite D. split.
  - intros k p (a & U & P & N) Hk fuel Hf. rewrite (loop_found par props bld n d k t a p 0); auto; lia.
  - intros k (r & U & P & N) Hk fuel Hf. rewrite (loop_default par props bld n d k t r 0); auto; lia.
Qed.

(** Joining path components with slashes. *)
Fixpoint join (cs : list text) : text :=
  match cs with
  | [] => []
  | [c] => c
  | c :: r => c ++ SLASH :: join r
  end.

Lemma join_cons c r : r <> [] -> join (c :: r) = c ++ SLASH :: join r.
Proof. destruct r; [easy|reflexivity]. Qed.

Definition component (c : text) : Prop := ~ In SLASH c.

Lemma slashes_none c : component c -> filter (fun x => x =? SLASH) c = [].
Proof.
  induction c as [|x c IH]; intros H; cbn [filter]; [reflexivity|].
  destruct (Z.eqb_spec x SLASH) as [->|_]; [exfalso; apply H; now left|]. apply IH. intros Hc; apply H; now right.
Qed.

Lemma slashes_join cs : Forall component cs -> cs <> [] -> S (List.length (filter (fun x => x =? SLASH) (join cs))) = List.length cs.
Proof.
  intros F. induction F as [|c r Hc Hr IH]; intros H; [easy|].
  destruct r as [|c' r'].
  - cbn [join]. now rewrite slashes_none.
  - rewrite join_cons by easy. rewrite filter_app, slashes_none by auto. cbn [app filter].
    rewrite Z.eqb_refl. cbn [List.length] in *. now rewrite IH.
Qed.

Lemma splitn_rest_join m : forall cs, Forall component cs -> (m < List.length cs)%nat ->
  splitn_rest m SLASH (join cs) = join (skipn m cs).
Proof.
  induction m as [|m IH]; intros cs F H; [reflexivity|].
  destruct cs as [|c r]; [cbn in H; lia|]. inversion_clear F as [|? ? Hc Hr].
  cbn [List.length] in H. assert (r <> []) by (destruct r; [cbn in H; lia|easy]).
  rewrite join_cons by auto. cbn [splitn_rest]. rewrite split_once_app by exact Hc. cbn [skipn].
  apply IH; [auto|lia].
Qed.

(** The last [k] elements of a list. *)
Definition last_n {A} (k : nat) (l : list A) : list A := skipn (List.length l - k) l.

Lemma derive_inherited cs bmp k : Forall component cs -> (0 < k < List.length cs)%nat ->
  derive_mountpoint (join cs) bmp (SSet (Z.of_nat k)) = Some (bmp ++ SLASH :: join (last_n k cs)).
Proof.
  intros F H. destruct (Z.of_nat k) as [|p|p] eqn:Ek; [lia| |lia].
  unfold derive_mountpoint. pose proof (slashes_join cs F ltac:(intros ->; cbn in H; lia)) as SJ.
  set (q := List.length (filter _ _)) in *.
  destruct (Z.ltb_spec (Z.of_nat q + 2 - Z.pos p) 0); [lia|].
  replace (Z.to_nat (Z.of_nat q + 2 - Z.pos p)) with (S (List.length cs - k)%nat) by lia.
  cbn [splitn_last]. rewrite splitn_rest_join; [reflexivity|exact F|lia].
Qed.

(** The mountpoint of a data set whose path is [cs] (pool name first). *)
Theorem C44_mountpoint_partial par props bld t cs :
  Forall component cs -> cs <> [] ->
  (forall k bmp fuel, nearest par props t NBaseMountpoint k (BaseMountpoint bmp) -> (k < List.length cs)%nat -> (k <= 255)%nat -> (k < fuel)%nat ->
     get_prop par props bld fuel (join cs) t NMountpoint =
       Some (Mountpoint (bmp ++ List.concat (map (fun c => SLASH :: c) (last_n k cs))), SSet (Z.of_nat k))) /\
  (forall k fuel, nowhere par props t NBaseMountpoint k -> (k <= 255)%nat -> (k < fuel)%nat ->
     get_prop par props bld fuel (join cs) t NMountpoint = Some (Mountpoint (SLASH :: join cs), SDefault)).
Proof.
  intros F Hne. destruct (C44_inheritance_partial par props bld t NBaseMountpoint _ eq_refl) as [H1 H2]. split.
  - intros k bmp fuel N Hk K Hf. unfold get_prop. cbn [name_inheritable]. rewrite (H1 k _ N K fuel Hf).
    destruct k as [|k'].
    + cbn [derive_mountpoint Z.of_nat]. unfold last_n. rewrite Nat.sub_0_r, skipn_all. cbn. now rewrite app_nil_r.
    + set (k := S k') in *. rewrite derive_inherited by (auto; lia). do 3 f_equal. f_equal.
      assert (L : last_n k cs <> []).
      { unfold last_n. intros E. apply (f_equal (@List.length _)) in E. rewrite skipn_length in E. cbn in E. lia. }
      induction (last_n k cs) as [|c r IH]; [easy|]. destruct r as [|c' r'].
      * cbn. now rewrite app_nil_r.
      * rewrite join_cons by easy. cbn [map List.concat]. cbn [app]. do 2 f_equal. cbn [map List.concat] in IH. apply IH. easy.
  - intros k fuel N K Hf. unfold get_prop. cbn [name_inheritable]. rewrite (H2 k N K fuel Hf). reflexivity.
Qed.

(** With more than 255 levels the one-byte level counter overflows: a release
    build takes an ancestor's property for the data set's own, so a data set 256
    levels down gets the same mountpoint as its ancestor; a debug build panics. *)
Definition chain_par (t : Z) : option Z := if t >? 0 then Some (t - 1) else None.
Definition chain_props (t : Z) (n : pname) : option property :=
  match n with NBaseMountpoint => if t =? 0 then Some (BaseMountpoint (str "/mnt")) else None | _ => None end.

Lemma chain_up k : forall t, Z.of_nat k <= t -> up chain_par t k (t - Z.of_nat k).
Proof.
  induction k as [|k IH]; intros t H.
  - replace (t - Z.of_nat 0) with t by lia. constructor.
  - apply up_more with (t' := t - 1); [unfold chain_par; destruct (Z.gtb_spec t 0); [reflexivity|lia]|].
    replace (t - Z.of_nat (S k)) with (t - 1 - Z.of_nat k) by lia. apply IH. lia.
Qed.

Lemma chain_up_inv k : forall t a, up chain_par t k a -> a = t - Z.of_nat k.
Proof.
  induction k as [|k IH]; intros t a H; inversion H; subst; [lia|].
  apply IH in H3. unfold chain_par in H1. destruct (Z.gtb_spec t 0); [|discriminate]. injection H1 as <-. lia.
Qed.

Theorem C44_deep_inheritance_refuted :
  nearest chain_par chain_props 256 NBaseMountpoint 256 (BaseMountpoint (str "/mnt")) /\
  (forall dataset, get_prop chain_par chain_props Release 300 dataset 256 NMountpoint = Some (Mountpoint (str "/mnt"), SSet 0)) /\
  (forall dataset, get_prop chain_par chain_props Release 300 dataset 0 NMountpoint = Some (Mountpoint (str "/mnt"), SSet 0)) /\
  (forall dataset, get_prop chain_par chain_props Debug 300 dataset 256 NMountpoint = None).
Proof.
  split; [|split; [|split]]; try (intros; reflexivity).
  exists 0. split; [|split; [reflexivity|]].
  - exact (chain_up 256 256 ltac:(lia)).
  - intros j b Hj U. apply chain_up_inv in U. subst b. unfold chain_props.
    destruct (Z.eqb_spec (256 - Z.of_nat j) 0); [lia|reflexivity].
Qed.

Example C44_case :
  get_prop chain_par chain_props Debug 10 (join [str "tank"; str "home"; str "bob"]) 2 NMountpoint =
  Some (Mountpoint (str "/mnt/home/bob"), SSet 2).
Proof. reflexivity. Qed.

Example C44_case_nearest : nearest chain_par chain_props 2 NBaseMountpoint 2 (BaseMountpoint (str "/mnt")).
Proof.
  exists 0. split; [exact (chain_up 2 2 ltac:(lia))|]. split; [reflexivity|].
  intros j b Hj U. apply chain_up_inv in U. subst b. unfold chain_props.
  destruct (Z.eqb_spec (2 - Z.of_nat j) 0); [lia|reflexivity].
Qed.

(** * C45 *)

Definition belongs (pool name rest : text) : Prop := (name = pool /\ rest = []) \/ name = pool ++ SLASH :: rest.

Lemma strip_prefix_app p s : strip_prefix p (p ++ s) = Some s.
Proof. induction p as [|x p IH]; cbn; [reflexivity|]. now rewrite Z.eqb_refl. Qed.

Lemma strip_prefix_inv p : forall s r, strip_prefix p s = Some r -> s = p ++ r.
Proof.
  induction p as [|x p IH]; intros s r H; cbn [strip_prefix] in H; [injection H as ->; reflexivity|].
  destruct s as [|y s]; [discriminate|]. destruct (Z.eqb_spec x y) as [->|]; [|discriminate]. cbn. f_equal. auto.
Qed.

(** Names of the pool are resolved correctly, and a name that does not begin with
    the pool's name is rejected. *)
Theorem C45_pool_names_partial pool name :
  (forall rest, belongs pool name rest -> strip_pool_name pool name = Some rest) /\
  ((forall s, name <> pool ++ s) -> strip_pool_name pool name = None).
Proof.
  unfold strip_pool_name. split.
  - intros rest [[-> ->]| ->].
    + rewrite <- (app_nil_r pool) at 2. now rewrite strip_prefix_app.
    + rewrite strip_prefix_app. cbn. reflexivity.
  - intros H. destruct (strip_prefix pool name) as [s|] eqn:E; [|reflexivity].
    apply strip_prefix_inv in E. exfalso. eapply H; eauto.
Qed.

(** But any name that merely begins with the same characters is accepted: data sets
    of pool "tank2" are looked up in pool "tank", and creating "tank2" creates the
    data set "2" below the root of "tank". *)
Theorem C45_foreign_pool_refuted :
  exists pool name, (forall rest, ~ belongs pool name rest) /\
    strip_pool_name pool name <> None /\
    create_target pool name = Some (CRoot, str "2").
Proof.
  exists (str "tank"), (str "tank2"). split; [|split; [easy|reflexivity]].
  intros rest [[H _]|H]; vm_compute in H; discriminate.
Qed.

(** It happens for every pool and every suffix that does not start with a slash. *)
Theorem C45_every_suffix_refuted pool c s :
  c <> SLASH -> strip_pool_name pool (pool ++ c :: s) = Some (c :: s) /\ (forall rest, ~ belongs pool (pool ++ c :: s) rest).
Proof.
  intros Hc. split.
  - unfold strip_pool_name. rewrite strip_prefix_app. cbn [strip_prefix].
    destruct (Z.eqb_spec SLASH c); [congruence|reflexivity].
  - intros rest [[H _]|H].
    + rewrite <- (app_nil_r pool) in H at 2. apply app_inv_head in H. discriminate.
    + apply app_inv_head in H. congruence.
Qed.

Example C45_case : belongs (str "tank") (str "tank/home/bob") (str "home/bob") /\ create_target (str "tank") (str "tank/home/bob") = Some (CPath (str "home"), str "bob").
Proof. split; [right|]; reflexivity. Qed.

Print Assumptions C43_print_parse_partial.
Print Assumptions C43_record_sizes_partial.
Print Assumptions C43_record_size_refuted.
Print Assumptions C43_names_and_sources.
Print Assumptions C43_sources_refuted.
Print Assumptions C44_inheritance_partial.
Print Assumptions C44_mountpoint_partial.
Print Assumptions C44_deep_inheritance_refuted.
Print Assumptions C45_pool_names_partial.
Print Assumptions C45_foreign_pool_refuted.
Print Assumptions C45_every_suffix_refuted.
