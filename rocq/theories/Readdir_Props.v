(** C37: listing a directory in pieces, and C61: listing a directory that changes between the pieces. *)
From Verif Require Import Common HTable_Model Names_Model Names_Dir Names_Proofs Names_Ops Names_Ops2 Names_Spec Names_Props Readdir_Model.
From Coq Require Import Permutation Sorted.

(** ** Cursors *)
Lemma cursor_val o i : 0 <= o < 2 ^ 56 -> 0 <= i < 256 -> cursor o i = o * 256 + i.
Proof.
  intros Ho Hi. assert (L : Z.land (Z.shiftl o 8) i = 0).
  { apply Z.bits_inj'. intros n Hn. rewrite Z.land_spec, Z.bits_0, Z.shiftl_spec by lia. destruct (Z.ltb_spec n 8).
    - rewrite Z.testbit_neg_r by lia. reflexivity.
    - assert (E : Z.testbit i n = false). { destruct (Z.eq_dec i 0) as [->|]; [apply Z.bits_0|]. apply Z.bits_above_log2; [lia|]. apply Z.log2_lt_pow2; [lia|]. apply Z.lt_le_trans with (2 ^ 8); [lia|]. apply Z.pow_le_mono_r; lia. } rewrite E. apply andb_false_r. }
  unfold cursor. rewrite (Z.mod_small (Z.shiftl o 8)). 2:{ rewrite Z.shiftl_mul_pow2 by lia. change (2 ^ 8) with 256. change (2 ^ 64) with (2 ^ 56 * 256). lia. }
  rewrite <- Z.lxor_lor by exact L. rewrite <- Z.add_nocarry_lxor by exact L. rewrite Z.shiftl_mul_pow2 by lia. reflexivity.
Qed.
Lemma cursor_offset o i : 0 <= o < 2 ^ 56 -> 0 <= i < 256 -> c_offset (cursor o i) = o.
Proof. intros Ho Hi. rewrite cursor_val by assumption. unfold c_offset. rewrite Z.shiftr_div_pow2 by lia. change (2 ^ 8) with 256. rewrite Z.add_comm, Z.div_add by lia. rewrite Z.div_small by lia. lia. Qed.
Lemma cursor_idx o i : 0 <= o < 2 ^ 56 -> 0 <= i < 256 -> c_idx (cursor o i) = i.
Proof. intros Ho Hi. rewrite cursor_val by assumption. unfold c_idx. change 255 with (Z.ones 8). rewrite Z.land_ones by lia. change (2 ^ 8) with 256. rewrite Z.add_comm, Z.mod_add by lia. apply Z.mod_small. lia. Qed.

(** ** The order of listing *)
Lemma ins_perm x l : Permutation (ins x l) (x :: l).
Proof. induction l as [|y r IH]; cbn [ins]; [reflexivity|]. destruct (fst x <=? fst y); [reflexivity|]. rewrite IH. apply perm_swap. Qed.
Lemma sorted_perm l : Permutation (sorted l) l.
Proof. induction l as [|x l IH]; [constructor|]. cbn [sorted fold_right]. rewrite ins_perm. now constructor. Qed.
Notation below := (fun a b : Z * @cell name ent => fst a < fst b).
Lemma ins_sorted x l : StronglySorted below l -> ~ In (fst x) (map fst l) -> StronglySorted below (ins x l).
Proof.
  intros S. induction S as [|y r S IH F]; intros H; cbn [ins map In] in *; [repeat constructor|]. destruct (Z.leb_spec (fst x) (fst y)).
  - constructor; [now constructor|]. constructor; [lia|]. eapply Forall_impl; [|exact F]. cbn beta. lia.
  - constructor; [apply IH; tauto|]. apply (Permutation_Forall (Permutation_sym (ins_perm x r))). constructor; [lia|exact F].
Qed.
Lemma sorted_sorted l : NoDup (map fst l) -> StronglySorted below (sorted l).
Proof. induction l as [|x l IH]; intros N; [constructor|]. inversion N; subst. cbn [sorted fold_right]. apply ins_sorted; [auto|]. rewrite (Permutation_in' eq_refl (Permutation_map fst (sorted_perm l))). assumption. Qed.
Lemma filter_below o (r : cells) : Forall (fun kc => o <= fst kc) r -> filter (fun kc => o <=? fst kc) r = r.
Proof. induction 1 as [|x r H F IH]; [reflexivity|]. cbn [filter]. destruct (Z.leb_spec o (fst x)); [now rewrite IH|lia]. Qed.
Lemma range_split o pre (rq : cells) : StronglySorted below (pre ++ rq) -> Forall (fun kc => fst kc < o) pre -> Forall (fun kc => o <= fst kc) rq -> filter (fun kc => o <=? fst kc) (pre ++ rq) = rq.
Proof.
  intros _ P Q. rewrite filter_app, (filter_below o rq Q). replace (filter _ pre) with (@nil (Z * @cell name ent)); [reflexivity|]. symmetry. induction P as [|x pre H P IH]; [reflexivity|]. cbn [filter]. destruct (Z.leb_spec o (fst x)); [lia|exact IH].
Qed.
Lemma sorted_app pre (rq : cells) : StronglySorted below (pre ++ rq) -> forall a b, In a pre -> In b rq -> fst a < fst b.
Proof.
  induction pre as [|x pre IH]; intros S a b Ia Ib; [destruct Ia|]. cbn [app] in S. inversion S as [|? ? S' F]; subst. destruct Ia as [->|Ia]; [|exact (IH S' a b Ia Ib)]. rewrite Forall_forall in F. apply F. apply in_or_app. now right.
Qed.
Lemma sorted_tail pre (rq : cells) : StronglySorted below (pre ++ rq) -> StronglySorted below rq.
Proof. induction pre as [|x pre IH]; intros S; [exact S|]. inversion S; subst. auto. Qed.

(** A cell that can be listed: its key's successor is a valid offset, and an index into it fits in a byte *)
Definition okc (kc : Z * @cell name ent) : Prop :=
  0 <= fst kc < 2 ^ 56 - 1 /\ match snd kc with Single _ => True | Bucket b => (1 <= length b <= 256)%nat | Other => False end.

(** What a stream returns *)
Fixpoint bout (k ret : Z) (b : list item) : list (item * Z) :=
  match b with
  | [] => []
  | x :: r => (x, match r with [] => cursor (k + 1) 0 | _ => cursor k ((ret + 1) mod 256) end) :: bout k ((ret + 1) mod 256) r
  end.
Fixpoint outs (skip : Z) (rq : cells) : list (item * Z) :=
  match rq with
  | [] => []
  | (k, Single x) :: r => (x, cursor (k + 1) 0) :: outs skip r
  | (k, Bucket b) :: r => bout k 0 (skipn (Z.to_nat skip) (rev b)) ++ outs 0 r
  | (_, Other) :: _ => []
  end.
Definition outs_st (st : rstream) : list (item * Z) :=
  match r_bucketing st with Some (b, k, ret) => bout k ret b ++ outs (r_skip st) (r_rq st) | None => outs (r_skip st) (r_rq st) end.
Lemma pop_outs skip rq b k ret : b <> [] -> exists x o st, pop_bucket skip rq b k ret = PItem x o st /\ bout k ret b ++ outs skip rq = (x, o) :: outs_st st /\ r_rq st = rq /\ (forall b' k' r', r_bucketing st = Some (b', k', r') -> b' <> []).
Proof.
  destruct b as [|x [|y b]]; [contradiction| |]; intros _; cbn [pop_bucket]; eexists _, _, _; (split; [reflexivity|]); split; try reflexivity; (split; [reflexivity|]).
  - discriminate.
  - intros b' k' r' E. injection E as <- _ _. discriminate.
Qed.
Lemma poll_outs rq : Forall okc rq -> forall skip, match poll_rq skip rq with
  | PItem x o st => outs skip rq = (x, o) :: outs_st st /\ Forall okc (r_rq st) /\ (forall b k r, r_bucketing st = Some (b, k, r) -> b <> [])
  | PEnd => outs skip rq = [] | PPanic => False end.
Proof.
  induction 1 as [|[k c] rq [Hk Hc] F IH]; intros skip; [reflexivity|]. cbn [poll_rq outs snd] in *. destruct c as [x|b|]; [|destruct (skipn (Z.to_nat skip) (rev b)) as [|y b'] eqn:E|contradiction].
  - split; [reflexivity|]. split; [exact F|discriminate].
  - cbn [bout app]. exact (IH 0).
  - destruct (pop_outs 0 rq (y :: b') k 0) as (x & o & st & -> & E1 & E2 & E3); [discriminate|]. split; [exact E1|]. split; [now rewrite E2|exact E3].
Qed.
Lemma take_outs n : forall st, Forall okc (r_rq st) -> (forall b k r, r_bucketing st = Some (b, k, r) -> b <> []) -> take n st = Some (firstn n (outs_st st)).
Proof.
  induction n as [|n IH]; intros st F B; [reflexivity|]. cbn [take]. unfold poll_next. destruct st as [skip rq [[[b k] r]|]]; cbn [r_bucketing r_skip r_rq] in *.
  - destruct (pop_outs skip rq b k r (B _ _ _ eq_refl)) as (x & o & st & -> & E1 & E2 & E3). rewrite (IH st); [|now rewrite E2|exact E3]. unfold outs_st at 2. cbn [r_bucketing r_skip r_rq]. rewrite E1. reflexivity.
  - pose proof (poll_outs rq F skip) as P. unfold outs_st. cbn [r_bucketing r_skip r_rq]. destruct (poll_rq skip rq) as [x o st| |]; [|rewrite P; reflexivity|contradiction]. destruct P as (E & F' & B'). rewrite (IH st F' B'), E. reflexivity.
Qed.

Definition citems (kc : Z * @cell name ent) : list item := rev (cell_items (snd kc)).
Definition order (rq : cells) : list item := flat_map citems rq.
Lemma bout_fst k b : forall ret, map fst (bout k ret b) = b.
Proof. induction b as [|x b IH]; intros ret; [reflexivity|]. cbn [bout map fst]. now rewrite IH. Qed.
Lemma bout_nth k b : forall ret i x o, nth_error (bout k ret b) i = Some (x, o) ->
  (i < length b)%nat /\ o = if (S i <? length b)%nat then cursor k ((ret + Z.of_nat i + 1) mod 256) else cursor (k + 1) 0.
Proof.
  induction b as [|y b IH]; intros ret i x o E; [destruct i; discriminate|]. cbn [bout] in E. destruct i as [|i]; cbn [nth_error] in E.
  - injection E as -> <-. cbn [length]. split; [lia|]. destruct b as [|z b]; cbn [length]; [reflexivity|]. replace (ret + Z.of_nat 0 + 1) with (ret + 1) by lia. reflexivity.
  - destruct (IH _ _ _ _ E) as [L ->]. cbn [length]. split; [lia|]. change (S (S i) <? S (length b))%nat with (S i <? length b)%nat. destruct (S i <? length b)%nat; [|reflexivity]. f_equal. replace (ret + Z.of_nat (S i) + 1) with (ret + 1 + (Z.of_nat i + 1)) by lia. rewrite <- (Z.add_mod_idemp_l (ret + 1)) by lia. f_equal. lia.
Qed.
Lemma bout_length k b ret : length (bout k ret b) = length b.
Proof. rewrite <- (bout_fst k b ret) at 2. now rewrite map_length. Qed.
Lemma outs0_order rq : Forall okc rq -> map fst (outs 0 rq) = order rq.
Proof.
  induction 1 as [|[k c] rq [Hk Hc] F IH]; [reflexivity|]. cbn [outs snd] in *. unfold order in *. cbn [flat_map]. unfold citems at 1. cbn [snd]. destruct c as [x|b|]; [|rewrite map_app, bout_fst|contradiction]; cbn [cell_items rev map fst app skipn Z.to_nat]; rewrite IH; reflexivity.
Qed.

(** ** Resuming in an unchanged directory *)
Section Static.
Context (l : dir).
Let SL := sorted l.
Context (SS : StronglySorted below SL) (OK : Forall okc SL).

(** the position that a cursor stands for *)
Definition stands (c skip : Z) (rq : cells) : Prop :=
  opendir l c = RStream skip rq None /\ (exists pre, SL = pre ++ rq) /\
  (skip = 0 \/ exists k b r, rq = (k, Bucket b) :: r /\ c_offset c = k /\ 0 < skip < Z.of_nat (length b)).

Lemma at_cell pre k c r : SL = pre ++ (k, c) :: r -> range l k = (k, c) :: r /\ range l (k + 1) = r.
Proof.
  intros E. unfold range. fold SL. rewrite E. pose proof SS as SS'. rewrite E in SS'. pose proof (sorted_app _ _ SS') as A. pose proof (sorted_tail _ _ SS') as T. inversion T as [|? ? T' F]; subst. split.
  - apply range_split; [exact SS'| |].
    + apply Forall_forall. intros x Ix. exact (A x (k, c) Ix (or_introl eq_refl)).
    + constructor; [cbn; lia|]. eapply Forall_impl; [|exact F]. cbn. lia.
  - replace (pre ++ (k, c) :: r) with ((pre ++ [(k, c)]) ++ r) by now rewrite <- app_assoc. apply range_split; [now rewrite <- app_assoc| |].
    + apply Forall_app. split; [|repeat constructor; cbn; lia]. apply Forall_forall. intros x Ix. pose proof (A x (k, c) Ix (or_introl eq_refl)). cbn in *. lia.
    + eapply Forall_impl; [|exact F]. cbn. lia.
Qed.
Lemma okc_at pre k c r : SL = pre ++ (k, c) :: r -> okc (k, c) /\ Forall okc r.
Proof. intros E. pose proof OK as O. rewrite E in O. apply Forall_app in O. destruct O as [_ O]. now inversion O. Qed.
Lemma after_cell pre k c r : SL = pre ++ (k, c) :: r -> stands (cursor (k + 1) 0) 0 r.
Proof.
  intros E. destruct (okc_at _ _ _ _ E) as [[Hk _] _]. cbn [fst] in Hk. split; [|split; [exists (pre ++ [(k, c)]); now rewrite <- app_assoc|now left]]. unfold opendir. rewrite cursor_offset, cursor_idx by lia. now rewrite (proj2 (at_cell _ _ _ _ E)).
Qed.
Lemma in_cell pre k b r i : SL = pre ++ (k, Bucket b) :: r -> 0 < i < Z.of_nat (length b) -> stands (cursor k i) i ((k, Bucket b) :: r).
Proof.
  intros E Hi. destruct (okc_at _ _ _ _ E) as [[Hk Hc] _]. cbn [fst snd] in *. split; [|split; [eauto|]].
  - unfold opendir. rewrite cursor_offset, cursor_idx by lia. now rewrite (proj1 (at_cell _ _ _ _ E)).
  - right. exists k, b, r. rewrite cursor_offset by lia. auto.
Qed.
Lemma outs_next skip rq : (exists pre, SL = pre ++ rq) -> (skip = 0 \/ exists k b r, rq = (k, Bucket b) :: r /\ 0 < skip < Z.of_nat (length b)) ->
  forall i x o, nth_error (outs skip rq) i = Some (x, o) -> (skip = 0 \/ exists k c r, rq = (k, c) :: r /\ c_offset o <> k) ->
  exists skip' rq', stands o skip' rq' /\ map fst (outs skip' rq') = skipn (i + 1) (map fst (outs skip rq)).
Proof.
  revert skip. induction rq as [|[k c] rq IH]; intros skip [pre E] Hs i x o N NT; [destruct i; discriminate|].
  destruct (okc_at _ _ _ _ E) as [[Hk Hc] Fr]. cbn [fst snd] in *. assert (E' : exists pre', SL = pre' ++ rq) by (exists (pre ++ [(k, c)]); now rewrite <- app_assoc). destruct c as [y|b|]; [| |contradiction].
  - assert (skip = 0). { destruct Hs as [|(k' & b & r & E0 & _)]; [assumption|discriminate]. } subst skip. cbn [outs] in *. destruct i as [|i].
    + injection N as _ <-. exists 0, rq. split; [exact (after_cell _ _ _ _ E)|reflexivity].
    + cbn [nth_error] in N. destruct (IH 0 E' (or_introl eq_refl) i x o N (or_introl eq_refl)) as (s' & rq' & St & Eo). exists s', rq'. split; [exact St|exact Eo].
  - cbn [outs] in *. set (b' := skipn (Z.to_nat skip) (rev b)) in *. assert (Lb : length b' = (length b - Z.to_nat skip)%nat) by (unfold b'; rewrite skipn_length, rev_length; reflexivity).
    assert (Pos : (0 < length b')%nat). { destruct Hs as [->|(k' & b0 & r & E0 & Hb)]; [change (Z.to_nat 0) with 0%nat in Lb; lia|]. injection E0 as <- <- <-. lia. }
    destruct (Nat.lt_ge_cases i (length b')) as [Hi|Hi].
    + rewrite nth_error_app1 in N by (rewrite bout_length; exact Hi). destruct (bout_nth _ _ _ _ _ _ N) as [_ Eo]. destruct (S i <? length b')%nat eqn:El.
      * apply Nat.ltb_lt in El. rewrite Z.mod_small in Eo by lia. replace (0 + Z.of_nat i + 1) with (Z.of_nat i + 1) in Eo by lia.
        assert (skip = 0). { destruct NT as [|(k' & c' & r & E0 & Ne)]; [assumption|]. injection E0 as <- <- <-. exfalso. apply Ne. rewrite Eo. apply cursor_offset; lia. } subst skip. change (Z.to_nat 0) with 0%nat in Lb.
        exists (Z.of_nat i + 1), ((k, Bucket b) :: rq). split; [rewrite Eo; apply (in_cell pre); [exact E|lia]|]. cbn [outs]. rewrite !map_app, !bout_fst. unfold b'. cbn [Z.to_nat skipn]. rewrite skipn_app. replace (i + 1 - length (rev b))%nat with 0%nat by (rewrite rev_length; lia). replace (Z.to_nat (Z.of_nat i + 1)) with (i + 1)%nat by lia. reflexivity.
      * apply Nat.ltb_ge in El. exists 0, rq. split; [rewrite Eo; exact (after_cell _ _ _ _ E)|]. rewrite map_app, bout_fst, skipn_app, skipn_all2 by lia. replace (i + 1 - length b')%nat with 0%nat by lia. reflexivity.
    + rewrite nth_error_app2 in N by (rewrite bout_length; exact Hi). rewrite bout_length in N. destruct (IH 0 E' (or_introl eq_refl) _ x o N (or_introl eq_refl)) as (s' & rq' & St & Eo). exists s', rq'. split; [exact St|]. rewrite Eo, map_app, bout_fst, skipn_app, (skipn_all2 b') by lia. cbn [app]. f_equal. lia.
Qed.
End Static.

Lemma next_offset_last c r : r <> [] -> exists x, nth_error r (length r - 1) = Some (x, next_offset c r).
Proof.
  intros H. destruct (exists_last H) as (r' & [x o] & ->). exists x. unfold next_offset. rewrite rev_app_distr. cbn [rev app]. rewrite app_length. cbn [length]. rewrite nth_error_app2 by lia. replace (length r' + 1 - 1 - length r')%nat with 0%nat by lia. reflexivity.
Qed.
(** No two consecutive pieces end within the same bucket *)
Fixpoint not_twice (l : dir) (c : Z) (plan : list nat) : Prop :=
  match plan with
  | [] => True
  | n :: p => match piece l c n with
              | Some r => (c_idx c = 0 \/ c_offset (next_offset c r) <> c_offset c) /\ not_twice l (next_offset c r) p
              | None => True
              end
  end.
Notation total plan := (fold_right Nat.add 0%nat plan).
Notation same_dir l plan := (map (fun n => (l, n)) plan).

Lemma nth_firstn {A} (l : list A) : forall n i v, nth_error (firstn n l) i = Some v -> nth_error l i = Some v.
Proof. induction l as [|x l IH]; intros [|n] [|i] v E; cbn in *; try discriminate; eauto. Qed.
Lemma firstn_in {A} (l : list A) n x : In x (firstn n l) -> In x l.
Proof. intros I. rewrite <- (firstn_skipn n l). apply in_or_app. now left. Qed.
Lemma firstn_add {A} (l : list A) n m : firstn n l ++ firstn m (skipn n l) = firstn (n + m) l.
Proof. revert l. induction n as [|n IH]; intros l; [reflexivity|]. destruct l as [|x l]; cbn; [now rewrite firstn_nil|]. now rewrite IH. Qed.
Section Static2.
Context (l : dir).
Context (SS : StronglySorted below (sorted l)) (OK : Forall okc (sorted l)).
Notation stands := (stands l).
Lemma suffix_ok rq : (exists pre, sorted l = pre ++ rq) -> Forall okc rq.
Proof. intros [pre E]. rewrite E in OK. apply Forall_app in OK. tauto. Qed.
Lemma piece_stands c skip rq n : stands c skip rq -> piece l c n = Some (firstn n (outs skip rq)).
Proof. intros (E & P & _). unfold piece. rewrite E, take_outs; [reflexivity|apply suffix_ok; exact P|discriminate]. Qed.
Lemma stands_step c skip rq n : stands c skip rq -> (1 <= n)%nat -> let r := firstn n (outs skip rq) in (c_idx c = 0 \/ c_offset (next_offset c r) <> c_offset c) ->
  exists skip' rq', stands (next_offset c r) skip' rq' /\ map fst (outs skip' rq') = skipn n (map fst (outs skip rq)).
Proof.
  intros St Hn r NT. assert (D : outs skip rq = [] \/ r <> []). { subst r. destruct (outs skip rq); [now left|right]. destruct n; [lia|discriminate]. } destruct D as [Eo|Hr].
  - exists skip, rq. assert (Er : r = []) by (subst r; rewrite Eo; destruct n; reflexivity). rewrite Er, Eo. split; [exact St|]. destruct n; reflexivity.
  - destruct (next_offset_last c r Hr) as (x & N). pose proof St as (E & P & Hs).
    assert (Lr : length r = Nat.min n (length (outs skip rq))) by apply firstn_length.
    destruct (outs_next l SS OK skip rq P) with (i := (length r - 1)%nat) (x := x) (o := next_offset c r) as (s' & rq' & St' & Em).
    + destruct Hs as [|(k & b & q & E1 & _ & E3)]; [now left|right; eauto].
    + exact (nth_firstn _ _ _ _ N).
    + destruct NT as [I0|Ne].
      * left. unfold opendir in E. injection E as E _. congruence.
      * destruct Hs as [|(k & b & q & E1 & E2 & E3)]; [now left|]. right. exists k, (Bucket b), q. split; [exact E1|congruence].
    + exists s', rq'. split; [exact St'|]. rewrite Em. replace (length r - 1 + 1)%nat with (length r) by (destruct r; [contradiction|cbn [length]; lia]). rewrite Lr, <- (map_length fst (outs skip rq)). destruct (Nat.le_ge_cases n (length (map fst (outs skip rq)))); [rewrite Nat.min_l by lia; reflexivity|]. rewrite Nat.min_r by lia. rewrite !skipn_all2 by lia. reflexivity.
Qed.
Lemma static_session plan : forall c skip rq, stands c skip rq -> Forall (fun n => (1 <= n)%nat) plan -> not_twice l c plan ->
  exists out c', session piece c (same_dir l plan) = Some (out, c') /\ map fst out = firstn (total plan) (map fst (outs skip rq)).
Proof.
  induction plan as [|n plan IH]; intros c skip rq St F NT; cbn [map session fold_right]; [eauto|]. inversion F as [|? ? Hn F']; subst. cbn [not_twice] in NT. rewrite (piece_stands c skip rq n St) in *. destruct NT as [NT1 NT2].
  destruct (stands_step c skip rq n St Hn NT1) as (s' & rq' & St' & Em). destruct (IH _ _ _ St' F' NT2) as (out & c' & -> & Eo). eexists _, _. split; [reflexivity|]. rewrite map_app, Eo, Em, <- firstn_map. apply firstn_add.
Qed.
Lemma stands_start : stands 0 0 (sorted l).
Proof. split; [|split; [exists []; reflexivity|now left]]. unfold opendir. change (c_idx 0) with 0. change (c_offset 0) with 0. f_equal. unfold range. apply filter_below. eapply Forall_impl; [|exact OK]. intros x [H _]. lia. Qed.

(** no bucket holds more than two entries *)
Context (Small : Forall (fun kc => (length (cell_items (snd kc)) <= 2)%nat) (sorted l)).
Lemma outs_bound m rq : Forall okc rq -> Forall (fun kc => (length (cell_items (snd kc)) <= 2)%nat) rq -> Forall (fun kc => m <= fst kc) rq -> 0 <= m -> Forall (fun xo => m * 256 + 1 <= snd xo) (outs 0 rq).
Proof.
  clear Small SS OK. intros O Sm M Hm. induction O as [|[k c] rq [Hk Hc] O IH]; [constructor|]. inversion Sm as [|? ? Sk Sm']; inversion M as [|? ? Mk M']; subst. cbn [fst snd outs] in *. destruct c as [x|b|]; [| |contradiction]; cbn [cell_items] in Sk.
  - constructor; [|auto]. cbn [snd]. rewrite cursor_val by lia. lia.
  - apply Forall_app. split; [|auto]. cbn [Z.to_nat skipn]. rewrite <- rev_length in Sk. destruct (rev b) as [|x [|y [|]]]; cbn [length bout] in *; [constructor| | |lia]; repeat constructor; cbn [snd]; rewrite cursor_val; try lia; change ((0 + 1) mod 256) with 1; lia.
Qed.
Lemma small_piece c skip rq : stands c skip rq -> Forall (fun xo => c <= snd xo /\ (c_idx c = 0 \/ c_offset c < c_offset (snd xo))) (outs skip rq).
Proof.
  intros (E & P & Hs). pose proof (suffix_ok rq P) as O. destruct P as [pre P]. assert (Sm : Forall (fun kc => (length (cell_items (snd kc)) <= 2)%nat) rq) by (rewrite P in Small; apply Forall_app in Small; tauto).
  unfold opendir in E. injection E as Ei Er. assert (Hc : c = c_offset c * 256 + c_idx c). { unfold c_offset, c_idx. rewrite Z.shiftr_div_pow2 by lia. change 255 with (Z.ones 8). rewrite Z.land_ones by lia. rewrite Z.mul_comm. apply Z.div_mod. lia. }
  destruct Hs as [->|(k & b & q & E1 & E2 & E3)].
  - destruct rq as [|kc rq0] eqn:Erq; [constructor|]. rewrite <- Erq in *. assert (M : Forall (fun kc => c_offset c <= fst kc) rq). { rewrite <- Er. apply Forall_forall. intros x I. unfold range in I. apply filter_In in I. lia. }
    assert (C0 : 0 <= c_offset c \/ c_offset c < 0) by lia. destruct C0 as [C0|C0].
    + eapply Forall_impl; [|apply (outs_bound (c_offset c) rq O Sm M C0)]. cbn beta. intros xo H. split; [lia|left; exact Ei].
    + eapply Forall_impl; [|apply (outs_bound 0 rq O Sm); [|lia]]. { cbn beta. intros xo H. split; [lia|left; exact Ei]. } eapply Forall_impl; [|exact O]. intros x [H _]. lia.
  - clear Er. rewrite E1 in *. clear rq E1. inversion Sm as [|? ? Sk Sm']; subst. cbn [snd cell_items] in Sk. inversion O as [|? ? [Ok _] O']; subst. cbn [fst] in Ok. assert (Es : c_idx c = 1) by lia. rewrite Es in *.
    assert (B : Forall (fun xo => (c_offset c + 1) * 256 <= snd xo) (outs 1 ((c_offset c, Bucket b) :: q))).
    { cbn [outs]. apply Forall_app. split.
      - change (Z.to_nat 1) with 1%nat. rewrite <- rev_length in Sk. destruct (rev b) as [|x [|y [|]]]; cbn [length skipn bout] in *; [constructor|constructor| |lia]. repeat constructor. cbn [snd]. rewrite cursor_val by lia. lia.
      - eapply Forall_impl; [|apply (outs_bound (c_offset c + 1) q O' Sm'); [|lia]]. { cbn beta. intros; lia. } pose proof SS as S'. rewrite P in S'. apply sorted_tail in S'. inversion S' as [|? ? _ F]; subst. eapply Forall_impl; [|exact F]. cbn. lia. }
    eapply Forall_impl; [|exact B]. cbn beta. intros xo H. split; [lia|]. right. unfold c_offset at 2. rewrite Z.shiftr_div_pow2 by lia. change (2 ^ 8) with 256. assert (c_offset c + 1 <= snd xo / 256) by (apply Z.div_le_lower_bound; lia). lia.
Qed.
Lemma small_session plan : forall c skip rq, stands c skip rq -> Forall (fun n => (1 <= n)%nat) plan ->
  exists out c', session fuse_piece c (same_dir l plan) = Some (out, c') /\ map fst out = firstn (total plan) (map fst (outs skip rq)).
Proof.
  induction plan as [|n plan IH]; intros c skip rq St F; cbn [map session fold_right]; [eauto|]. inversion F as [|? ? Hn F']; subst. unfold fuse_piece at 1. rewrite (piece_stands c skip rq n St). pose proof (small_piece c skip rq St) as B.
  assert (Bf : Forall (fun xo => c <= snd xo /\ (c_idx c = 0 \/ c_offset c < c_offset (snd xo))) (firstn n (outs skip rq))). { apply Forall_forall. intros x I. exact (proj1 (Forall_forall _ _) B x (firstn_in _ _ _ I)). }
  replace (forallb _ (firstn n (outs skip rq))) with true. 2:{ symmetry. apply forallb_forall. intros x I. pose proof (proj1 (Forall_forall _ _) Bf x I) as [H _]. cbn beta in H. lia. }
  assert (NT : c_idx c = 0 \/ c_offset (next_offset c (firstn n (outs skip rq))) <> c_offset c).
  { destruct (firstn n (outs skip rq)) as [|y ys] eqn:Er.
    - left. destruct St as (Eo & _ & [->|(k & b & q & -> & E2 & E3)]); [unfold opendir in Eo; now injection Eo|]. exfalso. destruct n; [lia|]. cbn [outs] in Er. assert (Lb : length (skipn (Z.to_nat skip) (rev b)) = (length b - Z.to_nat skip)%nat) by (rewrite skipn_length, rev_length; reflexivity). destruct (skipn (Z.to_nat skip) (rev b)); [cbn [length] in Lb; lia|discriminate].
    - destruct (next_offset_last c (y :: ys)) as (x & N); [discriminate|]. apply nth_error_In in N. pose proof (proj1 (Forall_forall _ _) Bf _ N) as [_ [H|H]]; [now left|]. right. cbn [snd] in H. lia. }
  destruct (stands_step c skip rq n St Hn NT) as (s' & rq' & St' & Em). destruct (IH _ _ _ St' F') as (out & c' & -> & Eo). eexists _, _. split; [reflexivity|]. rewrite map_app, Eo, Em, <- firstn_map. apply firstn_add.
Qed.
End Static2.

(** ** C37 *)
Section Props.
Context (hash : name -> Z).
(** the number of names in a directory that have the hash [k] *)
Definition crowd (l : dir) (k : Z) : nat := length (filter (fun x => hash (fst x) =? k) (dents l)).
Lemma crowd_cell l k c : WFd hash l -> In (k, c) l -> (length (cell_items c) <= crowd l k)%nat.
Proof.
  intros [_ F] I. apply in_split in I. destruct I as (a & b & ->). unfold crowd, dents. rewrite flat_map_app. cbn [flat_map snd]. rewrite !filter_app, !app_length. apply Forall_app in F. destruct F as [_ F]. inversion F as [|? ? (_ & _ & H) _]; subst. cbn [fst snd] in H.
  assert (E : filter (fun x : item => hash (fst x) =? k) (cell_items c) = cell_items c). { clear -H. induction H as [|x r H _ IH]; [reflexivity|]. cbn [filter]. rewrite H, Z.eqb_refl. now rewrite IH. } rewrite E. lia.
Qed.
Definition listable (l : dir) : Prop := WFd hash l /\ (forall n e, In (n, e) (dents l) -> 0 <= hash n < 2 ^ 56 - 1) /\ forall k, (crowd l k <= 256)%nat.
Lemma listable_cells l : listable l -> StronglySorted below (sorted l) /\ Forall okc (sorted l) /\ Permutation (order (sorted l)) (dents l).
Proof.
  intros (W & B & C). split; [apply sorted_sorted, W|]. split.
  - apply (Permutation_Forall (Permutation_sym (sorted_perm l))). apply Forall_forall. intros [k c] I. pose proof (crowd_cell l k c W I) as L. pose proof (C k) as Ck. pose proof W as [_ F]. pose proof (proj1 (Forall_forall _ _) F _ I) as (K & _ & H). cbn [fst snd] in *.
    assert (Hk : cell_items c <> [] -> 0 <= k < 2 ^ 56 - 1). { destruct (cell_items c) as [|[n e] r] eqn:E; [congruence|]. intros _. inversion H as [|? ? E0 _]; subst. cbn [fst]. apply (B n e). unfold dents. apply in_flat_map. exists (hash n, c). split; [exact I|]. cbn [snd]. rewrite E. now left. }
    split; cbn [fst snd].
    + apply Hk. destruct c as [x|b|]; [discriminate| |contradiction]. cbn [cell_items]. destruct b; [cbn in K; lia|discriminate].
    + destruct c as [x|b|]; [exact Logic.I| |contradiction]. cbn [cell_items] in L. lia.
  - unfold order, dents. rewrite (Permutation_flat_map citems (sorted_perm l)). clear. induction l as [|kc l IH]; [constructor|]. cbn [flat_map]. rewrite IH. apply Permutation_app_tail. unfold citems. symmetry. apply Permutation_rev.
Qed.

(** If no name has the highest hash, no 257 names share a hash and no two consecutive pieces end within the same bucket, then
    the pieces together are the beginning of a list of all the entries, as long as the entries asked for. *)
Theorem C37_pieces_partial : forall l, listable l -> exists all, Permutation all (dents l) /\
  forall plan, Forall (fun n => (1 <= n)%nat) plan -> not_twice l 0 plan ->
    exists out c, session piece 0 (same_dir l plan) = Some (out, c) /\ map fst out = firstn (total plan) all.
Proof.
  intros l L. destruct (listable_cells l L) as (SS & OK & P). exists (order (sorted l)). split; [exact P|]. intros plan F NT. rewrite <- (outs0_order _ OK). exact (static_session l SS OK plan 0 0 (sorted l) (stands_start l OK) F NT).
Qed.
(** If no name has the highest hash and no three names share a hash, all is well whatever the pieces are. *)
Theorem C37_small_buckets_partial : forall l, WFd hash l -> (forall n e, In (n, e) (dents l) -> 0 <= hash n < 2 ^ 56 - 1) -> (forall k, (crowd l k <= 2)%nat) ->
  exists all, Permutation all (dents l) /\
  forall plan, Forall (fun n => (1 <= n)%nat) plan -> exists out c, session fuse_piece 0 (same_dir l plan) = Some (out, c) /\ map fst out = firstn (total plan) all.
Proof.
  intros l W B C. assert (L : listable l) by (split; [exact W|split; [exact B|intros k; specialize (C k); lia]]). destruct (listable_cells l L) as (SS & OK & P). exists (order (sorted l)). split; [exact P|]. intros plan F. rewrite <- (outs0_order _ OK).
  apply (small_session l SS OK); [|exact (stands_start l OK)|exact F]. apply (Permutation_Forall (Permutation_sym (sorted_perm l))). apply Forall_forall. intros [k c] I. cbn [snd]. pose proof (crowd_cell l k c W I). specialize (C k). lia.
Qed.

(** ** C61: the directory changes between the pieces *)
Lemma window rq : StronglySorted below rq -> Forall okc rq -> forall n c, (1 <= n)%nat -> let r := firstn n (outs 0 rq) in
  rq = [] \/ c_idx (next_offset c r) <> 0 \/
  exists pre post k, rq = pre ++ post /\ map fst r = order pre /\ next_offset c r = cursor (k + 1) 0 /\ Forall (fun kc => fst kc <= k) pre /\ Forall (fun kc => k < fst kc) post /\ 0 <= k < 2 ^ 56 - 1 /\ In k (map fst pre).
Proof.
  intros SS OK. induction OK as [|[k ce] rq [Hk Hc] OK IH]; intros n c Hn.
  - now left.
  - cbn [fst snd] in *. inversion SS as [|? ? SS' F]; subst. set (m := length (cell_items ce)).
    assert (O : exists o, outs 0 ((k, ce) :: rq) = o ++ outs 0 rq /\ map fst o = citems (k, ce) /\ (1 <= length o <= 256)%nat /\ forall i x v, nth_error o i = Some (x, v) -> v = if (S i <? length o)%nat then cursor k (Z.of_nat i + 1) else cursor (k + 1) 0).
    { unfold citems. cbn [snd]. destruct ce as [x|b|]; [exists [(x, cursor (k + 1) 0)]|exists (bout k 0 (rev b))|contradiction]; cbn [outs cell_items Z.to_nat skipn] in *; (split; [reflexivity|]).
      - split; [reflexivity|]. split; [cbn [length]; lia|]. intros [|i] y v E; [injection E as <- <-; reflexivity|destruct i; discriminate].
      - split; [apply bout_fst|]. rewrite bout_length, rev_length. split; [lia|]. intros i y v E. destruct (bout_nth _ _ _ _ _ _ E) as [L ->]. rewrite rev_length in *. destruct (S i <? length b)%nat eqn:El; [|reflexivity]. apply Nat.ltb_lt in El. rewrite Z.mod_small by lia. f_equal. }
    destruct O as (o & -> & Fo & Lo & No). cbn zeta. destruct (Nat.lt_ge_cases n (length o)) as [Lt|Ge].
    + right. left. rewrite firstn_app. replace (n - length o)%nat with 0%nat by lia. cbn [firstn]. rewrite app_nil_r. destruct (next_offset_last c (firstn n o)) as (x & N). { destruct o; [cbn in *; lia|]. destruct n; [lia|discriminate]. }
      apply nth_firstn in N. rewrite (No _ _ _ N). rewrite firstn_length, Nat.min_l by lia. replace (S (n - 1) <? length o)%nat with true by (symmetry; apply Nat.ltb_lt; lia). rewrite cursor_idx by lia. lia.
    + rewrite firstn_app, (firstn_all2 o) by lia. assert (Lasto : forall r, r = [] -> next_offset c (o ++ r) = cursor (k + 1) 0). { intros r ->. rewrite app_nil_r. destruct (next_offset_last c o) as (x & N); [destruct o; [cbn in *; lia|discriminate]|]. rewrite (No _ _ _ N). replace (S (length o - 1) <? length o)%nat with false; [reflexivity|]. symmetry. apply Nat.ltb_ge. lia. }
      assert (Here : forall r, r = [] -> exists pre post k0, (k, ce) :: rq = pre ++ post /\ map fst (o ++ r) = order pre /\ next_offset c (o ++ r) = cursor (k0 + 1) 0 /\ Forall (fun kc => fst kc <= k0) pre /\ Forall (fun kc => k0 < fst kc) post /\ 0 <= k0 < 2 ^ 56 - 1 /\ In k0 (map fst pre)).
      { intros r Hr. exists [(k, ce)], rq, k. split; [reflexivity|]. split; [rewrite Hr, app_nil_r, Fo; unfold order; cbn [flat_map]; now rewrite app_nil_r|]. split; [exact (Lasto r Hr)|]. split; [repeat constructor; cbn; lia|]. split; [exact F|]. split; [lia|now left]. }
      destruct (Nat.eq_dec n (length o)) as [En|En].
      * right. right. apply Here. replace (n - length o)%nat with 0%nat by lia. reflexivity.
      * specialize (IH SS' (n - length o)%nat c ltac:(lia)). cbn zeta in IH. set (r := firstn (n - length o) (outs 0 rq)) in *. destruct IH as [->|IH].
        { right. right. apply Here. unfold r. cbn [outs]. apply firstn_nil. }
        destruct r as [|y ys] eqn:Er.
        { right. right. now apply Here. }
        rewrite <- Er in *. assert (Nx : next_offset c (o ++ r) = next_offset c r). { unfold next_offset. rewrite rev_app_distr. destruct (rev r) as [|z zs] eqn:Ez; [|reflexivity]. exfalso. assert (r = []) by (rewrite <- (rev_involutive r), Ez; reflexivity). congruence. }
        rewrite Nx. destruct IH as [IH|(pre & post & k0 & E1 & E2 & E3 & E4 & E5 & E6 & E7)]; [right; left; exact IH|]. right. right. exists ((k, ce) :: pre), post, k0. split; [cbn [app]; now rewrite <- E1|]. split; [rewrite map_app, Fo, E2; reflexivity|]. split; [exact E3|]. split; [|split; [exact E5|split; [exact E6|now right]]]. constructor; [|exact E4]. cbn [fst].
        destruct pre as [|[k1 c1] pre]; [|inversion E4 as [|? ? H1 _]; subst; inversion F as [|? ? H2 _]; subst; cbn [fst] in *; lia]. exfalso. cbn in E2. rewrite Er in E2. discriminate.
Qed.

(** Each piece ends at the end of a bucket *)
Fixpoint whole_buckets (c : Z) (plan : list (dir * nat)) : Prop :=
  match plan with
  | [] => True
  | (l, n) :: p => match piece l c n with Some r => c_idx (next_offset c r) = 0 /\ whole_buckets (next_offset c r) p | None => True end
  end.
Definition once {A} (x : A) (l : list A) : Prop := exists a b, l = a ++ x :: b /\ ~ In x a /\ ~ In x b.
Lemma order_in rq x : In x (order rq) <-> exists kc, In kc rq /\ In x (cell_items (snd kc)).
Proof. unfold order. rewrite in_flat_map. unfold citems. split; intros (kc & I & J); exists kc; (split; [exact I|]); [now apply in_rev in J|now apply -> in_rev]. Qed.
Lemma once_nodup {A} (x : A) l : NoDup l -> In x l -> once x l.
Proof. intros N I. apply in_split in I. destruct I as (a & b & ->). exists a, b. split; [reflexivity|]. apply NoDup_remove_2 in N. rewrite in_app_iff in N. tauto. Qed.
Lemma once_app_l {A} (x : A) l1 l2 : once x l1 -> ~ In x l2 -> once x (l1 ++ l2).
Proof. intros (a & b & -> & Ha & Hb) H. exists a, (b ++ l2). rewrite <- app_assoc. split; [reflexivity|]. rewrite in_app_iff. tauto. Qed.
Lemma once_app_r {A} (x : A) l1 l2 : ~ In x l1 -> once x l2 -> once x (l1 ++ l2).
Proof. intros H (a & b & -> & Ha & Hb). exists (l1 ++ a), b. rewrite <- app_assoc. split; [reflexivity|]. rewrite in_app_iff. tauto. Qed.

Lemma nodup_tail {A} (a b : list A) : NoDup (a ++ b) -> NoDup b.
Proof. induction a as [|x a IH]; intros H; [exact H|]. inversion H; auto. Qed.
Lemma nodup_head {A} (a b : list A) : NoDup (a ++ b) -> NoDup a.
Proof. induction a as [|x a IH]; intros H; [constructor|]. inversion H; subst. constructor; [|auto]. rewrite in_app_iff in *. tauto. Qed.
Lemma aligned_range l o : listable l -> 0 <= o < 2 ^ 56 -> let rq := range l o in
  StronglySorted below rq /\ Forall okc rq /\ NoDup (order rq) /\ (forall n e, In (n, e) (order rq) <-> In (n, e) (dents l) /\ o <= hash n) /\ forall k, piece l (cursor o 0) k = Some (firstn k (outs 0 rq)).
Proof.
  intros L Ho rq. destruct (listable_cells l L) as (SS & OK & P).
  assert (Sub : forall rq0, StronglySorted below rq0 -> StronglySorted below (filter (fun kc => o <=? fst kc) rq0)).
  { intros rq0. induction 1 as [|x r S0 IH F]; [constructor|]. cbn [filter]. destruct (o <=? fst x); [|exact IH]. constructor; [exact IH|]. apply Forall_forall. intros y I. apply filter_In in I. exact (proj1 (Forall_forall _ _) F y (proj1 I)). }
  assert (S1 : StronglySorted below rq) by (apply Sub; exact SS). assert (O1 : Forall okc rq). { apply Forall_forall. intros x I. apply filter_In in I. exact (proj1 (Forall_forall _ _) OK x (proj1 I)). }
  split; [exact S1|]. split; [exact O1|]. destruct L as (W & B & C). split; [|split].
  - pose proof (dents_nodup hash l W) as ND. apply NoDup_map_inv in ND. apply (Permutation_NoDup (Permutation_sym P)) in ND. unfold rq, range. clear -ND. induction (sorted l) as [|kc r IH]; [constructor|]. unfold order in *. cbn [flat_map filter] in *. destruct (o <=? fst kc).
    + cbn [flat_map]. assert (ND' := nodup_tail _ _ ND). specialize (IH ND'). clear ND'. revert ND. generalize (citems kc). intros a ND. induction a as [|y a IHa]; [exact IH|]. cbn [app] in *. inversion ND; subst. constructor; [|auto]. intros I. apply H1. apply in_app_iff in I. apply in_app_iff. destruct I as [I|I]; [now left|right]. apply in_flat_map in I. destruct I as (z & I & J). apply filter_In in I. apply in_flat_map. exists z. tauto.
    + apply IH. exact (nodup_tail _ _ ND).
  - intros n e. rewrite order_in. unfold rq, range. split.
    + intros ([k c] & I & J). apply filter_In in I. destruct I as [I Hk]. cbn [fst snd] in *. assert (I' : In (k, c) l) by (apply (Permutation_in _ (sorted_perm l) I)). split; [unfold dents; apply in_flat_map; exists (k, c); auto|]. destruct W as [_ F]. destruct (proj1 (Forall_forall _ _) F _ I') as (_ & _ & H). pose proof (proj1 (Forall_forall _ _) H _ J) as H'. cbn [fst] in H'. lia.
    + intros [I Hn]. unfold dents in I. apply in_flat_map in I. destruct I as ([k c] & I & J). exists (k, c). split; [|exact J]. apply filter_In. split; [apply (Permutation_in _ (Permutation_sym (sorted_perm l)) I)|]. cbn [fst snd] in *. destruct W as [_ F]. destruct (proj1 (Forall_forall _ _) F _ I) as (_ & _ & H). pose proof (proj1 (Forall_forall _ _) H _ J) as H'. cbn [fst] in H'. lia.
  - intros k. unfold piece, opendir. rewrite cursor_offset, cursor_idx by lia. rewrite take_outs; [reflexivity|exact O1|discriminate].
Qed.

(** An entry that is there all the time is listed exactly once, whatever else is created and removed between the pieces, if each
    piece ends at the end of a bucket, no name has the highest hash and no 257 names share a hash; and a last piece shorter
    than asked for means that the end has been reached. *)
Theorem C61_stable_entries_partial : forall plan l n0 x e, Forall (fun ln => listable (fst ln) /\ (1 <= snd ln)%nat /\ In (x, e) (dents (fst ln))) (plan ++ [(l, n0)]) ->
  whole_buckets 0 (plan ++ [(l, n0)]) ->
  exists out1 c1 out2, session piece 0 plan = Some (out1, c1) /\ piece l c1 n0 = Some out2 /\ ((length out2 < n0)%nat -> once (x, e) (map fst (out1 ++ out2))).
Proof.
  intros plan l n0 x e F WB.
  assert (G : forall plan o, 0 <= o < 2 ^ 56 -> Forall (fun ln => listable (fst ln) /\ (1 <= snd ln)%nat /\ In (x, e) (dents (fst ln))) (plan ++ [(l, n0)]) -> whole_buckets (cursor o 0) (plan ++ [(l, n0)]) ->
    exists out1 c1 out2, session piece (cursor o 0) plan = Some (out1, c1) /\ piece l c1 n0 = Some out2 /\ ((length out2 < n0)%nat -> if o <=? hash x then once (x, e) (map fst (out1 ++ out2)) else ~ In (x, e) (map fst (out1 ++ out2)))).
  { clear plan F WB. induction plan as [|[l1 n1] plan IH]; intros o Ho F WB; cbn [app] in *; inversion F as [|? ? (L1 & N1 & I1) F']; subst; cbn [fst snd] in *.
    - destruct (aligned_range l o L1 Ho) as (S1 & O1 & ND & Mem & Pc). exists [], (cursor o 0), (firstn n0 (outs 0 (range l o))). split; [reflexivity|]. split; [apply Pc|]. intros Sh. cbn [app]. rewrite firstn_all2 in * by (rewrite firstn_length in Sh; lia). rewrite (outs0_order _ O1). destruct (Z.leb_spec o (hash x)).
      + apply once_nodup; [exact ND|]. apply Mem. auto.
      + intros I. apply Mem in I. lia.
    - destruct (aligned_range l1 o L1 Ho) as (S1 & O1 & ND & Mem & Pc). cbn [whole_buckets session] in *. rewrite Pc in *. destruct WB as [W1 WB]. pose proof (window _ S1 O1 n1 (cursor o 0) N1) as Wi. cbn zeta in Wi. set (r := firstn n1 (outs 0 (range l1 o))) in *.
      destruct Wi as [Er|[Bad|(pre & post & k & E1 & E2 & E3 & E4 & E5 & E6 & E7)]]; [|contradiction|].
      + assert (r = []) as Er' by (unfold r; rewrite Er; cbn [outs]; apply firstn_nil). assert (next_offset (cursor o 0) r = cursor o 0) as Nx by (rewrite Er'; reflexivity). rewrite Nx in *. destruct (IH o Ho F' WB) as (out1 & c1 & out2 & -> & Ep & H). eexists _, _, _. split; [reflexivity|]. split; [exact Ep|]. rewrite Er'. exact H.
      + rewrite E3 in *. destruct (IH (k + 1) ltac:(lia) F' WB) as (out1 & c1 & out2 & -> & Ep & H). eexists _, _, _. split; [reflexivity|]. split; [exact Ep|]. intros Hs. specialize (H Hs). rewrite <- app_assoc, map_app, E2.
          assert (MemP : In (x, e) (order pre) <-> o <= hash x <= k).
          { split.
            - intros I. assert (In (x, e) (order (range l1 o))) as I2 by (rewrite E1; unfold order; rewrite flat_map_app; apply in_or_app; now left). apply Mem in I2. apply order_in in I. destruct I as ([k1 c1'] & I & J). pose proof (proj1 (Forall_forall _ _) E4 _ I) as Hk. cbn [fst snd] in *. assert (Il : In (k1, c1') l1). { assert (In (k1, c1') (range l1 o)) as Ir by (rewrite E1; apply in_or_app; now left). unfold range in Ir. apply filter_In in Ir. exact (Permutation_in _ (sorted_perm l1) (proj1 Ir)). } destruct L1 as ([_ Fw] & _). destruct (proj1 (Forall_forall _ _) Fw _ Il) as (_ & _ & Hh). pose proof (proj1 (Forall_forall _ _) Hh _ J) as Hx. cbn [fst] in Hx. lia.
            - intros Hx. assert (In (x, e) (order (range l1 o))) as I2 by (apply Mem; split; [exact I1|lia]). rewrite E1 in I2. unfold order in I2. rewrite flat_map_app in I2. apply in_app_or in I2. destruct I2 as [I2|I2]; [exact I2|]. exfalso. apply (proj1 (order_in post (x, e))) in I2. destruct I2 as ([k1 c1'] & I & J). pose proof (proj1 (Forall_forall _ _) E5 _ I) as Hk. cbn [fst snd] in *. assert (Il : In (k1, c1') l1). { assert (In (k1, c1') (range l1 o)) as Ir by (rewrite E1; apply in_or_app; now right). unfold range in Ir. apply filter_In in Ir. exact (Permutation_in _ (sorted_perm l1) (proj1 Ir)). } destruct L1 as ([_ Fw] & _). destruct (proj1 (Forall_forall _ _) Fw _ Il) as (_ & _ & Hh). pose proof (proj1 (Forall_forall _ _) Hh _ J) as Hxx. cbn [fst] in Hxx. lia. }
          assert (NDp : NoDup (order pre)). { rewrite E1 in ND. unfold order in *. rewrite flat_map_app in ND. exact (nodup_head _ _ ND). }
          destruct (Z.leb_spec o (hash x)); destruct (Z.leb_spec (k + 1) (hash x)).
          ++ apply once_app_r; [rewrite MemP; lia|exact H].
          ++ apply once_app_l; [apply once_nodup; [exact NDp|rewrite MemP; lia]|exact H].
          ++ exfalso. apply in_map_iff in E7. destruct E7 as (kc & Ek & Ik). assert (In kc (range l1 o)) as Ir by (rewrite E1; apply in_or_app; now left). unfold range in Ir. apply filter_In in Ir. lia.
          ++ rewrite in_app_iff, MemP. intros [X|X]; [lia|contradiction]. }
  destruct (G plan 0 ltac:(lia) F WB) as (out1 & c1 & out2 & A & B & C). exists out1, c1, out2. split; [exact A|]. split; [exact B|]. intros Sh. specialize (C Sh). destruct (Z.leb_spec 0 (hash x)); [exact C|].
  apply Forall_app in F. destruct F as [_ F]. inversion F as [|? ? ((_ & Bd & _) & _ & I) _]; subst. cbn [fst snd] in *. specialize (Bd x e I). lia.
Qed.
End Props.

(** In every file system that legal operations lead to: a directory in which no name has the highest hash and no three names
    share a hash is listed completely, each name once and with the number and the kind of its file, whatever the pieces are. *)
Theorem C37_file_system_partial : forall hash dhash s d, hash DOT <> hash DOTDOT -> reachable hash dhash s ->
  (forall n, lookup hash s d n <> None -> 0 <= hash n < 2 ^ 56 - 1) ->
  (forall n1 n2 n3, n1 <> n2 -> n1 <> n3 -> n2 <> n3 -> lookup hash s d n1 <> None -> lookup hash s d n2 <> None -> lookup hash s d n3 <> None -> hash n1 = hash n2 -> hash n1 <> hash n3) ->
  exists all, NoDup (map fst all) /\ (forall n i, (exists b, In (n, (i, b)) all) <-> lookup hash s d n = Some i) /\
    (forall n i b, In (n, (i, b)) all -> ordinary n -> exists k, getattr s i = Some (b, k)) /\
    forall plan, Forall (fun n => (1 <= n)%nat) plan ->
      exists out c, session fuse_piece 0 (same_dir (ents s d) plan) = Some (out, c) /\ map fst out = firstn (total plan) all.
Proof.
  intros hash dhash s d Hh R B T. pose proof (reachable_inv hash dhash s Hh R) as I. pose proof I as [V _]. pose proof (iv_wf _ _ _ _ _ V d) as W.
  assert (Mem : forall n i, (exists b, In (n, (i, b)) (dents (ents s d))) <-> lookup hash s d n = Some i). { intros n i. rewrite lookup_some. split; intros (b & H); exists b; apply (N_iff hash); assumption. }
  assert (In_lookup : forall n e, In (n, e) (dents (ents s d)) -> lookup hash s d n <> None). { intros n [i b] H. rewrite (proj1 (Mem n i) (ex_intro _ b H)). discriminate. }
  destruct (C37_small_buckets_partial hash (ents s d) W) as (all & P & S).
  - intros n e H. apply B. exact (In_lookup n e H).
  - intros k. unfold crowd. pose proof (dents_nodup hash _ W) as ND. set (p := fun x : item => hash (fst x) =? k). destruct (Nat.le_gt_cases (length (filter p (dents (ents s d)))) 2) as [|Gt]; [assumption|exfalso].
    assert (NF : NoDup (map fst (filter p (dents (ents s d))))). { clear -ND. induction (dents (ents s d)) as [|x r IH]; [constructor|]. cbn [map filter] in *. inversion ND; subst. destruct (p x); [|auto]. cbn [map]. constructor; [|auto]. intros I. apply H1. apply in_map_iff in I. destruct I as (y & E & I). apply filter_In in I. apply in_map_iff. exists y. tauto. }
    assert (HF : forall x, In x (filter p (dents (ents s d))) -> lookup hash s d (fst x) <> None /\ hash (fst x) = k). { intros [n e] Ix. apply filter_In in Ix. destruct Ix as [Ix Px]. unfold p in Px. cbn [fst] in *. split; [exact (In_lookup n e Ix)|lia]. }
    destruct (filter p (dents (ents s d))) as [|x1 [|x2 [|x3 r]]]; cbn [length] in Gt; try lia. cbn [map] in NF. inversion NF as [|? ? A1 NF1]; subst. inversion NF1 as [|? ? A2 _]; subst. cbn [In] in A1, A2.
    destruct (HF x1 ltac:(now left)) as [L1 H1]. destruct (HF x2 ltac:(right; now left)) as [L2 H2]. destruct (HF x3 ltac:(right; right; now left)) as [L3 H3].
    apply (T (fst x1) (fst x2) (fst x3)); try assumption; try congruence; intros E; [apply A1|apply A1|apply A2]; rewrite E; auto.
  - exists all. split; [exact (Permutation_NoDup (Permutation_sym (Permutation_map fst P)) (dents_nodup hash _ W))|]. split.
    + intros n i. rewrite <- Mem. split; intros (b & H); exists b; [exact (Permutation_in _ P H)|exact (Permutation_in _ (Permutation_sym P) H)].
    + split; [|exact S]. intros n i b H O. apply (Permutation_in _ P) in H. apply (N_iff hash) in H; [|exact W]. pose proof (N_kind hash dhash s d n i b I H O) as K. unfold kind in K. unfold getattr. destruct (inodes s i) as [v|]; [|discriminate]. injection K as <-. eauto.
Qed.

(** ** Examples and refutations *)
Example C37_example : exists rs s, run hash7 did (new_fs hash7) [Create 1 na; Create 1 nh; Mkdir 1 nb; Link 1 2 nc] = Some (rs, s) /\ reachable hash7 did s /\
  option_map (fun oc => map (fun xo => fst (fst xo)) (fst oc)) (session fuse_piece 0 (same_dir (ents s 1) [1; 1; 3; 1; 5]%nat)) = Some [nb; DOTDOT; nc; DOT; nh; na].
Proof.
  destruct (run hash7 did (new_fs hash7) [Create 1 na; Create 1 nh; Mkdir 1 nb; Link 1 2 nc]) as [[rs s]|] eqn:E; [|vm_compute in E; discriminate]. exists rs, s. split; [reflexivity|]. split; [eexists _, _; split; [|exact E]; apply legal_runb; [exact did_inj|vm_compute; reflexivity]|]. vm_compute in E. injection E as _ <-. vm_compute. reflexivity.
Qed.
Lemma filter_length_le {A} (p : A -> bool) l : (length (filter p l) <= length l)%nat.
Proof. induction l as [|x l IH]; [reflexivity|]. cbn [filter]. destruct (p x); cbn [length]; lia. Qed.
Definition it (n : name) (i : Z) : item := (n, (i, false)).
(** three names with one hash *)
Definition dir3 : dir := [(5, Bucket [it na 2; it nb 3; it nc 4]); (9, Single (it nh 5))].
Definition hash3 (n : name) : Z := if name_eqb n nh then 9 else 5.
Lemma dir3_wf : WFd hash3 dir3.
Proof. unfold WFd, dir3. split; [cbn; repeat constructor; cbn; intuition discriminate|]. repeat constructor; cbn; intuition discriminate. Qed.
Example C37_pieces_example : listable hash3 dir3 /\ not_twice dir3 0 [2; 1; 1]%nat /\ option_map (fun oc => map fst (fst oc)) (session piece 0 (same_dir dir3 [2; 1; 1]%nat)) = Some [it nc 4; it nb 3; it na 2; it nh 5].
Proof.
  split; [split; [exact dir3_wf|split]|].
  - intros n e I. unfold hash3. destruct (name_eqb n nh); lia.
  - intros k. unfold crowd, dents, dir3. cbn [flat_map cell_items snd app]. pose proof (filter_length_le (fun x : item => hash3 (fst x) =? k) [it na 2; it nb 3; it nc 4; it nh 5]) as H. cbn [length] in H. lia.
  - split; [vm_compute; intuition discriminate|vm_compute; reflexivity].
Qed.
(** Reading one entry at a time never gets beyond the second entry of the bucket. *)
Theorem C37_never_ends_refuted : exists hash l x, WFd hash l /\ In x (dents l) /\ (forall n e, In (n, e) (dents l) -> 0 <= hash n < 100) /\
  forall m, exists out c, session fuse_piece 0 (same_dir l (repeat 1%nat m)) = Some (out, c) /\ length out = m /\ ~ In x (map fst out).
Proof.
  exists hash3, dir3, (it na 2). split; [exact dir3_wf|]. split; [left; reflexivity|]. split; [intros n e _; unfold hash3; destruct (name_eqb n nh); lia|].
  assert (Loop : forall m, exists out c, session fuse_piece (cursor 5 1) (same_dir dir3 (repeat 1%nat m)) = Some (out, c) /\ length out = m /\ ~ In (it na 2) (map fst out)).
  { induction m as [|m (out & c & E & L & Nx)]; [exists [], (cursor 5 1); repeat split; intros []|]. cbn [repeat map session]. replace (fuse_piece dir3 (cursor 5 1) 1) with (Some [(it nb 3, cursor 5 1)]) by (vm_compute; reflexivity). replace (next_offset (cursor 5 1) [(it nb 3, cursor 5 1)]) with (cursor 5 1) by reflexivity. rewrite E. eexists _, _. split; [reflexivity|]. split; [cbn [length app]; lia|]. cbn [app map fst In]. intros [X|X]; [discriminate|contradiction]. }
  intros [|m]; [exists [], 0; repeat split; intros []|]. destruct (Loop m) as (out & c & E & L & Nx). cbn [repeat map session]. replace (fuse_piece dir3 0 1) with (Some [(it nc 4, cursor 5 1)]) by (vm_compute; reflexivity). replace (next_offset 0 [(it nc 4, cursor 5 1)]) with (cursor 5 1) by reflexivity. rewrite E. eexists _, _. split; [reflexivity|]. split; [cbn [length app]; lia|]. cbn [app map fst In]. intros [X|X]; [discriminate|contradiction].
Qed.
(** Resuming after two of four names with one hash: FuseFs::readdir panics. *)
Definition dir4 : dir := [(5, Bucket [it na 2; it nb 3; it nc 4; it [101] 5])].
Theorem C37_fuse_panic_refuted : exists hash l, WFd hash l /\ (forall n e, In (n, e) (dents l) -> 0 <= hash n < 100) /\ session fuse_piece 0 (same_dir l [2; 1]%nat) = None.
Proof. exists (fun _ => 5), dir4. split; [|split; [lia|vm_compute; reflexivity]]. split; [cbn; repeat constructor; cbn; intuition|]. repeat constructor; cbn; intuition discriminate. Qed.
(** The highest hash: the next offset is 0, and the listing starts again. *)
Theorem C37_highest_hash_refuted : exists hash l, WFd hash l /\ length (dents l) = 1%nat /\ forall m, exists out c, session fuse_piece 0 (same_dir l (repeat 1%nat m)) = Some (out, c) /\ length out = m.
Proof.
  exists (fun _ => 2 ^ 56 - 1), [(2 ^ 56 - 1, Single (it na 2))]. split; [split; [cbn; repeat constructor; cbn; intuition|]; repeat constructor; cbn; intuition|]. split; [reflexivity|].
  induction m as [|m (out & c & E & L)]; [exists [], 0; auto|]. cbn [repeat map session]. replace (fuse_piece [(2 ^ 56 - 1, Single (it na 2))] 0 1) with (Some [(it na 2, 0)]) by (vm_compute; reflexivity). replace (next_offset 0 [(it na 2, 0)]) with 0 by reflexivity. rewrite E. eexists _, _. split; [reflexivity|]. cbn [length app]. lia.
Qed.
(** C61: a listing is interrupted within a bucket and the entry listed last is removed: an entry of the next bucket is skipped. *)
Definition before : dir := [(5, Bucket [it na 2; it nb 3]); (9, Bucket [it nc 4; it nh 5])].
Definition after : dir := [(5, Single (it na 2)); (9, Bucket [it nc 4; it nh 5])].
Definition hash61 (n : name) : Z := if name_eqb n na || name_eqb n nb then 5 else 9.
Theorem C61_skipped_refuted : exists hash l1 l2 x out1 c1 out2, WFd hash l1 /\ WFd hash l2 /\ (forall n e, In (n, e) (dents l1) -> 0 <= hash n < 100) /\ (forall k, (crowd hash l1 k <= 2)%nat) /\
  In x (dents l1) /\ In x (dents l2) /\ session piece 0 [(l1, 1%nat)] = Some (out1, c1) /\ piece l2 c1 10 = Some out2 /\ (length out2 < 10)%nat /\ ~ In x (map fst (out1 ++ out2)).
Proof.
  exists hash61, before, after, (it nh 5). eexists _, _, _. split; [split; [cbn; repeat constructor; cbn; intuition discriminate|]; repeat constructor; cbn; intuition discriminate|]. split; [split; [cbn; repeat constructor; cbn; intuition discriminate|]; repeat constructor; cbn; intuition discriminate|].
  split; [intros n e _; unfold hash61; destruct (name_eqb n na || name_eqb n nb); lia|]. split.
  { intros k. unfold crowd, before, dents. cbn [flat_map cell_items snd app filter fst it]. change (hash61 na) with 5. change (hash61 nb) with 5. change (hash61 nc) with 9. change (hash61 nh) with 9. destruct (Z.eqb_spec 5 k), (Z.eqb_spec 9 k); cbn [length]; lia. }
  split; [right; right; right; now left|]. split; [right; right; now left|]. split; [vm_compute; reflexivity|]. split; [vm_compute; reflexivity|]. split; [cbn; lia|]. vm_compute. intuition discriminate.
Qed.
Example C61_example : Forall (fun ln => listable hash61 (fst ln) /\ (1 <= snd ln)%nat /\ In (it nh 5) (dents (fst ln))) [(before, 2%nat); (after, 2%nat); (before, 9%nat)] /\ whole_buckets 0 [(before, 2%nat); (after, 2%nat); (before, 9%nat)].
Proof.
  assert (L : forall l, WFd hash61 l -> (length (dents l) <= 4)%nat -> listable hash61 l). { intros l W Ln. split; [exact W|]. split; [intros n e _; unfold hash61; destruct (name_eqb n na || name_eqb n nb); lia|]. intros k. unfold crowd. pose proof (filter_length_le (fun x : item => hash61 (fst x) =? k) (dents l)). lia. }
  assert (B : listable hash61 before). { apply L; [|cbn; lia]. split; [cbn; repeat constructor; cbn; intuition discriminate|]; repeat constructor; cbn; intuition discriminate. }
  assert (A : listable hash61 after). { apply L; [|cbn; lia]. split; [cbn; repeat constructor; cbn; intuition discriminate|]; repeat constructor; cbn; intuition discriminate. }
  split; [|vm_compute; auto]. repeat apply Forall_cons; [..|apply Forall_nil]; cbn [fst snd]; (split; [assumption|]); (split; [lia|]); vm_compute; tauto.
Qed.

Print Assumptions C37_pieces_partial.
Print Assumptions C37_small_buckets_partial.
Print Assumptions C37_file_system_partial.
Print Assumptions C61_stable_entries_partial.
Print Assumptions C37_never_ends_refuted.
Print Assumptions C37_fuse_panic_refuted.
Print Assumptions C37_highest_hash_refuted.
Print Assumptions C61_skipped_refuted.
