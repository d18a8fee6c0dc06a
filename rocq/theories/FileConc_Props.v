(** C42: concurrent writes to one file. *)
From Verif Require Import Common ZMap File_Model File_Proofs File_Props FileConc_Model.
From Coq Require Import Permutation.

(** * Specification *)

(** the shared state when the writes begin, and the file that is left when they are done *)
Definition begin_state (f : file) : shared := Shared (R (f_ds f)) (f_size f) (f_bytes f).
Definition end_file (s : shared) : file :=
  File (Ds (map (fun p => (fst p, Inline (snd p))) (c_ext s)) [] 0 []) (c_size s) (c_bytes s).

(** the calls [wr], each an offset and data, have not begun in [ws] *)
Definition calls (rs : Z) (wr : list (Z * list Z)) (ws : list writer) : Prop :=
  Forall2 (fun p w => new_writer rs (fst p) (snd p) = Some w) wr ws.
Definition all_done (ws : list writer) : Prop := Forall (fun w => w_phase w = Done) ws.

Definition covers (p : Z * list Z) (i : Z) : Prop := fst p <= i < fst p + zlen (snd p).
(** no two of the writes touch the same record *)
Definition apart (rs : Z) (wr : list (Z * list Z)) : Prop :=
  forall t t' p p', nth_error wr t = Some p -> nth_error wr t' = Some p' -> t <> t' ->
    forall i j, covers p i -> covers p' j -> i / rs <> j / rs.

(** * Proof *)
Section Proof.
Context (rs : Z).
Context (RS : 0 < rs).
Context (wr : list (Z * list Z)).
Context (s0 : Z).
Context (S0 : 0 <= s0).
Context (m0 : list (Z * list Z)).
Context (LW : Forall (fun p => 0 <= fst p /\ snd p <> [] /\ fst p + zlen (snd p) <= s0) wr).
Context (AP : apart rs wr).
Context (OK0 : zm_ok m0).
Context (F0 : Forall (rec_ok rs s0) m0).

Definition nrec (p : Z * list Z) : Z := uio_nrecs (zlen (snd p)) (fst p mod rs) rs.
Definition piece (p : Z * list Z) (r : Z) : list Z :=
  slice (snd p) (Z.max 0 (r * rs - fst p mod rs)) (Z.min (zlen (snd p)) ((r + 1) * rs - fst p mod rs)).
Definition pieces (p : Z * list Z) : list (list Z) := map (piece p) (zrange 0 (nrec p)).

Definition newval (old : option (list Z)) (o : Z) (c v : list Z) : Prop :=
  zlen v = Z.max (o + zlen c) (olen old) /\
  forall x, 0 <= x < rs -> byte_at v x = if (o <=? x) && (x <? o + zlen c) then byte_at c (x - o) else match old with Some b => byte_at b x | None => 0 end.
Definition status (w : writer) (i : nat) : task :=
  match w_phase w with Start => Todo | Records _ _ ts => nth i ts Todo | Done => Finished 0 end.
Definition key_ok (p : Z * list Z) (i : nat) (st : task) (cur : option (list Z)) : Prop :=
  let old := zm_get (rec_key rs (fst p) (Z.of_nat i)) m0 in
  match st with
  | Todo => cur = old
  | Held b => cur = None /\ b = old
  | Finished _ => exists v, cur = Some v /\ newval old (rec_ofs rs (fst p) (Z.of_nat i)) (piece p (Z.of_nat i)) v
  end.
Definition wok (p : Z * list Z) (w : writer) : Prop :=
  w_off w = fst p /\ w_chunks w = pieces p /\ w_len w = zlen (snd p) /\
  match w_phase w with Records size _ ts => size = s0 /\ length ts = length (pieces p) | _ => True end.
Definition owned (k : Z) : Prop := exists p i, In p wr /\ 0 <= i < nrec p /\ rec_key rs (fst p) i = k.
Definition I (st : shared * list writer) : Prop :=
  let (s, ws) := st in
  zm_ok (c_ext s) /\ c_size s = s0 /\ length ws = length wr /\
  (forall t p w, nth_error wr t = Some p -> nth_error ws t = Some w -> wok p w /\
     forall i, Z.of_nat i < nrec p -> key_ok p i (status w i) (zm_get (rec_key rs (fst p) (Z.of_nat i)) (c_ext s))) /\
  (forall k, ~ owned k -> zm_get k (c_ext s) = zm_get k m0).

Lemma nrec_pos p : 0 <= nrec p.
Proof.
  unfold nrec, uio_nrecs, div_ceil. pose proof (mod_range rs RS (fst p)). pose proof (zlen_nonneg (snd p)). rewrite (Z.div_small (fst p mod rs) rs) by lia.
  pose proof (Z.div_pos (fst p mod rs + zlen (snd p) + rs - 1) rs). lia.
Qed.
Lemma pieces_len p : length (pieces p) = Z.to_nat (nrec p).
Proof. unfold pieces. rewrite map_length, zrange_length. f_equal. lia. Qed.
Lemma pieces_nth p i : Z.of_nat i < nrec p -> nth i (pieces p) [] = piece p (Z.of_nat i).
Proof.
  intros L. unfold pieces. rewrite (nth_indep _ [] (piece p 0)) by (rewrite map_length, zrange_length; lia). rewrite map_nth, nth_zrange by lia. reflexivity.
Qed.
Lemma piece_len p i : 0 <= i < nrec p -> 0 < rec_ofs rs (fst p) i + zlen (piece p i) <= rs /\
  zlen (piece p i) = Z.min (zlen (snd p)) ((i + 1) * rs - fst p mod rs) - Z.max 0 (i * rs - fst p mod rs).
Proof.
  intros L. destruct (chunk_spec rs RS (snd p) (fst p mod rs) i (mod_range rs RS _)) as (c & _ & -> & A & B); [lia|apply L|]. split; [exact A|exact B].
Qed.
Lemma chunks_pieces p : into_chunks (snd p) (fst p mod rs) rs = Some (pieces p).
Proof.
  unfold into_chunks. destruct (chunks_spec rs RS (snd p) (fst p mod rs) (mod_range rs RS _) (Z.to_nat (nrec p)) 0) as (cs & E & ->); [lia| |].
  - pose proof (nrec_pos p). unfold nrec in *. lia.
  - exact E.
Qed.
(** the records of a write are those its bytes lie in *)
Lemma rec_covered p i : snd p <> [] -> 0 <= i < nrec p -> exists j, covers p j /\ rec_key rs (fst p) i <= j < rec_key rs (fst p) i + rs.
Proof.
  intros Ne L. destruct (piece_len p i L) as [A B]. unfold covers, rec_key, rec_ofs in *. pose proof (mod_range rs RS (fst p)) as M.
  assert (0 < zlen (snd p)). { pose proof (zlen_nonneg (snd p)). destruct (Z.eq_dec (zlen (snd p)) 0) as [E|]; [apply zlen_0_nil in E; contradiction|lia]. }
  destruct (Z.eqb_spec i 0) as [->|N].
  - exists (fst p). lia.
  - exists (fst p - fst p mod rs + i * rs). assert (rs <= i * rs) by nia. lia.
Qed.
Lemma key_mod (p : Z * list Z) i : rec_key rs (fst p) i mod rs = 0.
Proof. unfold rec_key. rewrite Z_mod_plus_full. apply base_mod. Qed.
Lemma key_div k j : k mod rs = 0 -> k <= j < k + rs -> j / rs = k / rs.
Proof. intros K L. destruct (base_of rs RS k j K L) as [E _]. rewrite div_base in E by exact RS. pose proof (Z.div_mod k rs ltac:(lia)). nia. Qed.
Lemma keys_apart t t' p p' i i' : nth_error wr t = Some p -> nth_error wr t' = Some p' -> 0 <= i < nrec p -> 0 <= i' < nrec p' ->
  rec_key rs (fst p) i = rec_key rs (fst p') i' -> t = t' /\ i = i'.
Proof.
  intros H1 H2 L1 L2 E. destruct (Nat.eq_dec t t') as [->|N].
  - split; [reflexivity|]. rewrite H1 in H2. injection H2 as <-. unfold rec_key in E. nia.
  - exfalso. pose proof LW as LW'. rewrite Forall_forall in LW'. pose proof (LW' _ (nth_error_In _ _ H1)) as (_ & Ne & _). pose proof (LW' _ (nth_error_In _ _ H2)) as (_ & Ne' & _).
    destruct (rec_covered p i Ne L1) as (j & C & Lj). destruct (rec_covered p' i' Ne' L2) as (j' & C' & Lj').
    apply (AP t t' p p' H1 H2 N j j' C C'). rewrite (key_div _ j (key_mod p i) Lj), (key_div _ j' (key_mod p' i') Lj'). now rewrite E.
Qed.

Lemma old_len (p : Z * list Z) i b : zm_get (rec_key rs (fst p) i) m0 = Some b -> zlen b <= rs.
Proof. intros G. destruct (get_rec rs s0 m0 _ _ F0 G) as (_ & _ & H & _). cbn in H. lia. Qed.
Lemma rmw_ok p i : 0 <= i < nrec p -> let old := zm_get (rec_key rs (fst p) i) m0 in
  exists v, rmw old (rec_ofs rs (fst p) i) (piece p i) = Some v /\ newval old (rec_ofs rs (fst p) i) (piece p i) v.
Proof.
  intros L old. destruct (piece_len p i L) as [A _]. set (o := rec_ofs rs (fst p) i) in *. set (c := piece p i) in *. pose proof (zlen_nonneg c).
  assert (O0 : 0 <= o) by (unfold o, rec_ofs; pose proof (mod_range rs RS (fst p)); destruct (i =? 0); lia).
  unfold rmw. set (bs := match old with None => zrepeat 0 (zlen c + o) | Some b => b end).
  assert (Hb : olen old <= zlen bs <= Z.max (o + zlen c) (olen old) /\ forall x, byte_at bs x = match old with Some b => byte_at b x | None => 0 end).
  { unfold bs. destruct old as [b|]; cbn [olen]; [split; [lia|reflexivity]|]. rewrite zlen_repeat by lia. split; [lia|]. intros. apply byte_zeros. }
  destruct (resize_spec bs (Z.max (o + zlen c) (zlen bs)) ltac:(lia)) as [R1 R2].
  destruct (overwrite_spec (resize bs (Z.max (o + zlen c) (zlen bs))) o c O0 ltac:(lia)) as (v & E & V1 & V2).
  exists v. split; [exact E|]. split; [lia|]. intros x Hx. rewrite V2, R2. destruct Hb as [_ Hb]. now rewrite Hb.
Qed.
Lemma full_ok p i : 0 <= i < nrec p -> rs <= zlen (piece p i) -> newval (zm_get (rec_key rs (fst p) i) m0) (rec_ofs rs (fst p) i) (piece p i) (piece p i).
Proof.
  intros L Lf. destruct (piece_len p i L) as [A _]. assert (O0 : 0 <= rec_ofs rs (fst p) i) by (unfold rec_ofs; pose proof (mod_range rs RS (fst p)); destruct (i =? 0); lia).
  assert (E : rec_ofs rs (fst p) i = 0) by lia. rewrite E in *. split.
  - destruct (zm_get (rec_key rs (fst p) i) m0) as [b|] eqn:G; cbn [olen]; [apply old_len in G|]; lia.
  - intros x Hx. replace ((0 <=? x) && (x <? 0 + zlen (piece p i))) with true by lia. f_equal. lia.
Qed.

Lemma task_ok p w ext i : wok p w -> Z.of_nat i < nrec p -> zm_ok ext ->
  key_ok p i (status w i) (zm_get (rec_key rs (fst p) (Z.of_nat i)) ext) ->
  exists ext' t', task_step rs ext w i (status w i) = Some (ext', t') /\ zm_ok ext' /\
    key_ok p i t' (zm_get (rec_key rs (fst p) (Z.of_nat i)) ext') /\ forall k, k <> rec_key rs (fst p) (Z.of_nat i) -> zm_get k ext' = zm_get k ext.
Proof.
  intros (E1 & E2 & E3 & _) Li Ok K. unfold task_step. rewrite E1, E2, pieces_nth by exact Li.
  set (k := rec_key rs (fst p) (Z.of_nat i)) in *. unfold key_ok in K. fold k in K. cbv zeta in K.
  destruct (status w i) as [|old|dl].
  - destruct (Z.ltb_spec (zlen (piece p (Z.of_nat i))) rs).
    + eexists _, _. split; [reflexivity|]. split; [apply zm_ok_del; exact Ok|]. split.
      * unfold key_ok. fold k. rewrite zm_get_del, Z.eqb_refl by exact Ok. auto.
      * intros j Nj. rewrite zm_get_del by exact Ok. now apply Z.eqb_neq in Nj as ->.
    + eexists _, _. split; [reflexivity|]. split; [apply zm_ok_set; exact Ok|]. split.
      * unfold key_ok. fold k. rewrite zm_get_set, Z.eqb_refl by exact Ok. eexists. split; [reflexivity|]. apply full_ok; lia.
      * intros j Nj. rewrite zm_get_set by exact Ok. now apply Z.eqb_neq in Nj as ->.
  - destruct K as [K1 ->]. destruct (rmw_ok p (Z.of_nat i) ltac:(lia)) as (v & Ev & Nv). fold k in Ev, Nv. rewrite Ev. eexists _, _. split; [reflexivity|]. split; [apply zm_ok_set; exact Ok|]. split.
    + unfold key_ok. fold k. rewrite zm_get_set, Z.eqb_refl by exact Ok. exists v. auto.
    + intros j Nj. rewrite zm_get_set by exact Ok. now apply Z.eqb_neq in Nj as ->.
  - eexists _, _. split; [reflexivity|]. split; [exact Ok|]. split; [exact K|reflexivity].
Qed.

Lemma upd_nth_error {A} (l : list A) i x j : nth_error (list_upd l i x) j = if Nat.eqb j i then (match nth_error l i with Some _ => Some x | None => None end) else nth_error l j.
Proof. apply list_upd_nth_error. Qed.

Lemma step_I st c : I st -> exists st', sched_step rs st c = Some st' /\ I st'.
Proof.
  destruct st as [s ws]. intros (Ok & Sz & Len & W & Un). unfold sched_step. destruct c as [t i]. cbn [fst snd].
  destruct (nth_error ws t) as [w|] eqn:Ew; [|eexists; split; [reflexivity|repeat (split; [assumption|]); assumption]].
  destruct (nth_error wr t) as [p|] eqn:Ep.
  2:{ exfalso. apply nth_error_None in Ep. assert (nth_error ws t <> None) by congruence. apply nth_error_Some in H. lia. }
  destruct (W t p w Ep Ew) as [Wk K]. pose proof Wk as (E1 & E2 & E3 & E4).
  assert (Simple : forall s' w', c_ext s' = c_ext s -> c_size s' = s0 -> wok p w' ->
    (forall j, Z.of_nat j < nrec p -> key_ok p j (status w' j) (zm_get (rec_key rs (fst p) (Z.of_nat j)) (c_ext s))) -> I (s', list_upd ws t w')).
  { intros s' w' Ee Es Wk' K'. split; [now rewrite Ee|]. split; [exact Es|]. split; [now rewrite list_upd_length|]. split.
    - intros t1 p1 w1 H1 H2. rewrite upd_nth_error in H2. destruct (Nat.eqb_spec t1 t) as [->|N].
      + rewrite Ew in H2. injection H2 as <-. rewrite Ep in H1. injection H1 as <-. rewrite Ee. auto.
      + rewrite Ee. apply (W t1 p1 w1 H1 H2).
    - intros k Hk. rewrite Ee. auto. }
  unfold writer_step. destruct (w_phase w) as [|size bytes ts|] eqn:Ph.
  - eexists. split; [reflexivity|]. apply Simple; [reflexivity|exact Sz| |].
    + split; [exact E1|]. split; [exact E2|]. split; [exact E3|]. cbn [w_phase]. split; [exact Sz|]. now rewrite map_length, E2.
    + intros j Lj. specialize (K j Lj). unfold status in *. rewrite Ph in K. cbn [w_phase].
      replace (nth j (map (fun _ : list Z => Todo) (w_chunks w)) Todo) with Todo; [exact K|]. symmetry.
      clear. revert j. induction (w_chunks w) as [|a l IH]; intros [|j]; cbn [map nth]; auto.
  - destruct E4 as [-> Lt]. destruct (forallb finished ts) eqn:Fi.
    + eexists. split; [reflexivity|]. apply Simple; [reflexivity| | |].
      * cbn [c_size]. rewrite E1, E3. rewrite Forall_forall in LW. pose proof (LW _ (nth_error_In _ _ Ep)). lia.
      * split; [exact E1|]. split; [exact E2|]. split; [exact E3|]. exact Logic.I.
      * intros j Lj. specialize (K j Lj). unfold status in *. rewrite Ph in K. cbn [w_phase]. rewrite forallb_forall in Fi.
        assert (Lj' : (j < length ts)%nat) by (rewrite Lt, pieces_len; lia). specialize (Fi _ (nth_In ts Todo Lj')). destruct (nth j ts Todo); try discriminate. exact K.
    + destruct (nth_error ts i) as [tk|] eqn:Et.
      2:{ eexists. split; [reflexivity|]. replace (list_upd ws t w) with ws; [repeat (split; [assumption|]); assumption|].
          clear - Ew. revert t Ew. induction ws as [|a l IH]; intros [|t] E; cbn in *; try discriminate; [congruence|]. now rewrite <- IH. }
      assert (Li : (i < length ts)%nat) by (apply nth_error_Some; congruence). assert (Lz : Z.of_nat i < nrec p) by (rewrite Lt, pieces_len in Li; lia).
      assert (Es : status w i = tk) by (unfold status; rewrite Ph; apply nth_error_nth; exact Et).
      destruct (task_ok p w (c_ext s) i Wk Lz Ok (K i Lz)) as (ext' & t' & E & Ok' & K' & Oth). rewrite Es in E. rewrite E. eexists. split; [reflexivity|].
      split; [exact Ok'|]. split; [exact Sz|]. split; [now rewrite list_upd_length|]. split.
      * intros t1 p1 w1 H1 H2. rewrite upd_nth_error in H2. destruct (Nat.eqb_spec t1 t) as [->|N].
        -- rewrite Ew in H2. injection H2 as <-. rewrite Ep in H1. injection H1 as <-. split.
           ++ split; [exact E1|]. split; [exact E2|]. split; [exact E3|]. cbn [w_phase]. split; [reflexivity|]. now rewrite list_upd_length.
           ++ intros j Lj. unfold status. cbn [w_phase c_ext]. destruct (Nat.eq_dec j i) as [->|Nj].
              ** rewrite nth_list_upd_eq by exact Li. exact K'.
              ** rewrite nth_list_upd_neq by congruence. rewrite Oth.
                 { specialize (K j Lj). unfold status in K. rewrite Ph in K. exact K. }
                 intros Eq. destruct (keys_apart t t p p (Z.of_nat j) (Z.of_nat i) Ep Ep ltac:(lia) ltac:(lia) Eq). lia.
        -- destruct (W t1 p1 w1 H1 H2) as [Wk1 K1]. split; [exact Wk1|]. intros j Lj. cbn [c_ext]. rewrite Oth; [apply K1; exact Lj|].
           intros Eq. destruct (keys_apart t1 t p1 p (Z.of_nat j) (Z.of_nat i) H1 Ep ltac:(lia) ltac:(lia) Eq). congruence.
      * intros k Hk. cbn [c_ext]. rewrite Oth; [apply Un; exact Hk|]. intros ->. apply Hk. exists p, (Z.of_nat i). split; [eapply nth_error_In; eauto|]. split; [lia|reflexivity].
  - eexists. split; [reflexivity|]. apply Simple; auto.
Qed.
Lemma sched_I : forall cs st, I st -> exists st', sched rs st cs = Some st' /\ I st'.
Proof.
  induction cs as [|c cs IH]; intros st H; [exists st; auto|]. cbn [sched]. destruct (step_I st c H) as (st1 & -> & H1). apply IH. exact H1.
Qed.

Lemma forall2_nth {A B} (Q : A -> B -> Prop) l1 l2 i a b : Forall2 Q l1 l2 -> nth_error l1 i = Some a -> nth_error l2 i = Some b -> Q a b.
Proof.
  intros F. revert i. induction F as [|x y l1 l2 H F IH]; intros [|i] E1 E2; cbn in *; try discriminate; [congruence|eauto].
Qed.
Lemma init_I bytes ws : calls rs wr ws -> I (Shared m0 s0 bytes, ws).
Proof.
  intros C. split; [exact OK0|]. split; [reflexivity|]. split; [clear - C; unfold calls in C; induction C; cbn [length]; congruence|]. split; [|reflexivity].
  intros t p w H1 H2. pose proof (forall2_nth _ _ _ _ _ _ C H1 H2) as E. cbn in E. unfold new_writer in E. rewrite chunks_pieces in E. injection E as <-.
  split; [repeat split|]. intros i Li. reflexivity.
Qed.

Lemma nrec_len p : nrec p * rs >= fst p mod rs + zlen (snd p) /\ (nrec p - 1) * rs < fst p mod rs + zlen (snd p).
Proof.
  pose proof (mod_range rs RS (fst p)). pose proof (zlen_nonneg (snd p)). unfold nrec, uio_nrecs, div_ceil. rewrite (Z.div_small (fst p mod rs) rs) by lia.
  set (a := fst p mod rs + zlen (snd p)). pose proof (Z.mul_div_le (a + rs - 1) rs RS). pose proof (Z.mul_succ_div_gt (a + rs - 1) rs RS). nia.
Qed.

(** what is in the file when all are done *)
Lemma done_cont s ws : I (s, ws) -> all_done ws ->
  (forall p i, In p wr -> covers p i -> cont rs (c_ext s) i = byte_at (snd p) (i - fst p)) /\
  (forall i, (forall p, In p wr -> ~ covers p i) -> cont rs (c_ext s) i = cont rs m0 i).
Proof.
  intros (Ok & Sz & Len & W & Un) D.
  assert (Own : forall p i, In p wr -> 0 <= i < nrec p -> exists v, zm_get (rec_key rs (fst p) i) (c_ext s) = Some v /\
    newval (zm_get (rec_key rs (fst p) i) m0) (rec_ofs rs (fst p) i) (piece p i) v).
  { intros p i Ip Li. apply In_nth_error in Ip. destruct Ip as [t Ep]. destruct (nth_error ws t) as [w|] eqn:Ew.
    2:{ apply nth_error_None in Ew. assert (nth_error wr t <> None) by congruence. apply nth_error_Some in H. lia. }
    destruct (W t p w Ep Ew) as [_ K]. specialize (K (Z.to_nat i)). rewrite Z2Nat.id in K by lia. specialize (K ltac:(lia)).
    unfold all_done in D. rewrite Forall_forall in D. specialize (D _ (nth_error_In _ _ Ew)). unfold status in K. rewrite D in K. cbn [key_ok] in K. unfold key_ok in K. rewrite Z2Nat.id in K by lia. exact K. }
  assert (Spot : forall p j i, In p wr -> 0 <= i < nrec p -> rec_key rs (fst p) i <= j < rec_key rs (fst p) i + rs ->
    cont rs (c_ext s) j = if (fst p <=? j) && (j <? fst p + zlen (snd p)) then byte_at (snd p) (j - fst p) else cont rs m0 j).
  { intros p j i Ip Li Lj. destruct (Own p i Ip Li) as (v & Ev & _ & Nv).
    pose proof (key_mod p i) as Km. rewrite (cont_rec rs RS _ _ j Km Lj), Ev. rewrite Nv by lia. rewrite (cont_rec rs RS m0 _ j Km Lj).
    destruct (piece_len p i Li) as [Lp Zp]. pose proof (mod_range rs RS (fst p)) as Mr. pose proof (zlen_nonneg (snd p)).
    set (k := rec_key rs (fst p) i) in *. set (o := rec_ofs rs (fst p) i) in *.
    assert (So : k + o = Z.max (fst p) (fst p - fst p mod rs + i * rs)) by (unfold k, o, rec_key, rec_ofs; destruct (Z.eqb_spec i 0) as [->|]; nia).
    assert (Fo : k + o + zlen (piece p i) = Z.min (fst p + zlen (snd p)) (k + rs)).
    { rewrite Zp. unfold k, o, rec_key, rec_ofs. destruct (Z.eqb_spec i 0) as [->|]; [lia|]. assert (rs <= i * rs) by nia. lia. }
    assert (Sk : k = fst p - fst p mod rs + i * rs) by reflexivity.
    replace ((o <=? j - k) && (j - k <? o + zlen (piece p i))) with ((fst p <=? j) && (j <? fst p + zlen (snd p))) by lia.
    destruct ((fst p <=? j) && (j <? fst p + zlen (snd p))) eqn:E; [|reflexivity].
    unfold piece. rewrite byte_slice by lia. f_equal. lia. }
  assert (Find : forall p j, In p wr -> covers p j -> exists i, 0 <= i < nrec p /\ rec_key rs (fst p) i <= j < rec_key rs (fst p) i + rs).
  { intros p j Ip C. exists (j / rs - fst p / rs). unfold rec_key. rewrite div_base by exact RS. unfold covers in C. pose proof (mod_range rs RS j). pose proof (nrec_len p) as [N1 N2].
    pose proof (Z.div_mod j rs ltac:(lia)). pose proof (Z.div_mod (fst p) rs ltac:(lia)). pose proof (Z.div_le_mono (fst p) j rs RS ltac:(lia)).
    split; [split; [lia|]|]; nia. }
  split.
  - intros p j Ip C. destruct (Find p j Ip C) as (i & Li & Lj). rewrite (Spot p j i Ip Li Lj). unfold covers in C. now replace ((fst p <=? j) && (j <? fst p + zlen (snd p))) with true by lia.
  - intros j Nc.
    destruct (existsb (fun p => existsb (fun i => rec_key rs (fst p) i =? j - j mod rs) (zrange 0 (nrec p))) wr) eqn:E.
    + apply existsb_exists in E. destruct E as (p & Ip & E). apply existsb_exists in E. destruct E as (i & Ii & E). apply in_zrange in Ii.
      pose proof (mod_range rs RS j). rewrite (Spot p j i Ip Ii) by lia. specialize (Nc p Ip). unfold covers in Nc. replace ((fst p <=? j) && (j <? fst p + zlen (snd p))) with false by lia. reflexivity.
    + unfold cont. rewrite Un; [reflexivity|]. intros (p & i & Ip & Li & Eq). assert (C : existsb (fun p => existsb (fun i => rec_key rs (fst p) i =? j - j mod rs) (zrange 0 (nrec p))) wr = true).
      { apply existsb_exists. exists p. split; [exact Ip|]. apply existsb_exists. exists i. split; [apply in_zrange; lia|lia]. }
      congruence.
Qed.
Lemma done_good s ws : I (s, ws) -> all_done ws -> fgood rs (File (f_ds (end_file s)) s0 (total (c_ext s))) /\ R (f_ds (end_file s)) = c_ext s.
Proof.
  intros HI D. pose proof HI as (Ok & Sz & Len & W & Un).
  assert (ER : R (f_ds (end_file s)) = c_ext s).
  { unfold R, end_file. cbn [f_ds d_ext d_blobs]. rewrite map_map. cbn [fst snd res]. rewrite <- (map_id (c_ext s)) at 2. apply map_ext. now intros []. }
  split; [|exact ER]. split; [|split].
  - cbn [f_ds f_size]. split; [|rewrite ER; split; [exact Ok|]].
    + cbn [end_file f_ds]. split; [cbn [d_ext]; apply (zm_ok_map Inline); exact Ok|]. split; [apply zm_ok_nil|]. cbn [d_ext d_blobs d_freed d_next flat_map].
      assert (Er : rids (map (fun p : Z * list Z => (fst p, Inline (snd p))) (c_ext s)) = []) by (clear; induction (c_ext s) as [|q l IH]; [reflexivity|exact IH]). rewrite Er.
      split; [reflexivity|]. split; [apply Forall_map, Forall_forall; intros; exact Logic.I|]. split; [constructor|]. split; [lia|reflexivity].
    + apply Forall_forall. intros [k b] Ik. apply (zm_in_get _ _ _ Ok) in Ik.
      destruct (existsb (fun p => existsb (fun i => rec_key rs (fst p) i =? k) (zrange 0 (nrec p))) wr) eqn:E.
      * apply existsb_exists in E. destruct E as (p & Ip & E). apply existsb_exists in E. destruct E as (i & Ii & E). apply in_zrange in Ii. apply Z.eqb_eq in E.
        apply In_nth_error in Ip. destruct Ip as [t Ep]. destruct (nth_error ws t) as [w|] eqn:Ew.
        2:{ apply nth_error_None in Ew. assert (nth_error wr t <> None) by congruence. apply nth_error_Some in H. lia. }
        destruct (W t p w Ep Ew) as [_ K]. specialize (K (Z.to_nat i)). unfold key_ok in K. rewrite Z2Nat.id in K by lia. specialize (K ltac:(lia)).
        unfold all_done in D. rewrite Forall_forall in D. specialize (D _ (nth_error_In _ _ Ew)). unfold status in K. rewrite D in K. rewrite E in K.
        destruct K as (v & Ev & Lv & _). rewrite Ik in Ev. injection Ev as ->. destruct (piece_len p i Ii) as [Lp Zp].
        rewrite Forall_forall in LW. destruct (LW _ (nth_error_In _ _ Ep)) as (P0 & Ne & Pe). pose proof (mod_range rs RS (fst p)) as Mr.
        assert (Ke : k = fst p - fst p mod rs + i * rs) by (rewrite <- E; reflexivity).
        assert (Kb : 0 <= fst p - fst p mod rs) by (rewrite div_base by exact RS; pose proof (Z.div_pos (fst p) rs P0 RS); nia).
        split; [cbn; nia|]. split; [cbn; rewrite <- E; apply key_mod|]. cbn [fst snd].
        assert (Old : olen (zm_get k m0) <= rs /\ (olen (zm_get k m0) <= 0 \/ k + olen (zm_get k m0) <= s0)).
        { destruct (zm_get k m0) as [b0|] eqn:G; cbn [olen]; [|lia]. destruct (get_rec rs s0 m0 _ _ F0 G) as (_ & _ & ? & ?). cbn in *. lia. }
        split; [lia|]. rewrite Lv, Zp in *. unfold rec_ofs in *. destruct (Z.eqb_spec i 0) as [->|]; [lia|]. assert (rs <= i * rs) by nia. lia.
      * rewrite Un in Ik. { apply zm_get_in in Ik. rewrite Forall_forall in F0. apply (F0 _ Ik). }
        intros (p & i & Ip & Li & Eq). assert (C : existsb (fun p => existsb (fun i => rec_key rs (fst p) i =? k) (zrange 0 (nrec p))) wr = true).
        { apply existsb_exists. exists p. split; [exact Ip|]. apply existsb_exists. exists i. split; [apply in_zrange; lia|lia]. }
        congruence.
  - exact S0.
  - cbn [f_bytes f_ds]. rewrite ER. reflexivity.
Qed.

End Proof.

(** * C42 *)

(** Whatever the interleaving, concurrent writes inside the existing file that share no record are all preserved: no panic, the
    size stays, every range written reads back, every other byte is as before.
    What is missing for the full claim is false: see the two [_refuted] theorems. *)
Theorem C42_disjoint_writes_partial rs f wr ws sch :
  0 < rs -> reachable rs f -> calls rs wr ws ->
  Forall (fun p => 0 <= fst p /\ snd p <> [] /\ fst p + zlen (snd p) <= f_size f) wr -> apart rs wr ->
  exists s ws', sched rs (begin_state f, ws) sch = Some (s, ws') /\
    (all_done ws' ->
     f_size (end_file s) = f_size f /\
     (forall off data, In (off, data) wr -> exists sg, read rs (end_file s) off (zlen data) = Some sg /\ concat sg = data) /\
     (forall i, 0 <= i -> (forall p, In p wr -> ~ covers p i) ->
        exists sg sg', read rs (end_file s) i 1 = Some sg /\ read rs f i 1 = Some sg' /\ concat sg = concat sg')).
Proof.
  intros RS Re C LW AP. destruct (reachable_good rs RS f Re) as (G & S0 & B). pose proof G as (Dk & Zk & Fk).
  pose proof (init_I rs RS wr (f_size f) (R (f_ds f)) Zk (f_bytes f) ws C) as I0.
  destruct (sched_I rs RS wr (f_size f) (R (f_ds f)) LW AP Fk sch _ I0) as ((s & ws') & E & I1). exists s, ws'. split; [exact E|]. intros D.
  destruct (done_cont rs RS wr (f_size f) (R (f_ds f)) s ws' I1 D) as [C1 C2].
  destruct (done_good rs RS wr (f_size f) S0 (R (f_ds f)) LW Fk s ws' I1 D) as [G' ER].
  assert (Sz : c_size s = f_size f) by apply I1. 
  assert (Rd : forall off n, 0 <= off -> 0 <= n -> exists sg, read rs (end_file s) off n = Some sg /\
    concat sg = map (cont rs (c_ext s)) (zrange off (Z.min (off + n) (f_size f)))).
  { intros off n L1 L2. destruct (read_spec rs RS _ off n G' L1 L2) as (sg & E1 & E2). exists sg. cbn [f_size f_ds] in E2. rewrite ER in E2. split; [|exact E2].
    rewrite <- E1. unfold read. cbn [end_file f_size f_ds]. now rewrite Sz. }
  split; [exact Sz|]. split.
  - intros off data Ip. rewrite Forall_forall in LW. pose proof (LW _ Ip) as (L0 & Ne & Le). cbn [fst snd] in *. pose proof (zlen_nonneg data).
    destruct (Rd off (zlen data) L0 ltac:(lia)) as (sg & E1 & E2). exists sg. split; [exact E1|]. rewrite E2. replace (Z.min (off + zlen data) (f_size f)) with (off + zlen data) by lia.
    rewrite (map_ext_in _ (fun i => byte_at data (i - off))). { symmetry. apply list_bytes. }
    intros i Hi. apply in_zrange in Hi. apply (C1 (off, data) i Ip). exact Hi.
  - intros i L0 Nc. destruct (Rd i 1 L0 ltac:(lia)) as (sg & E1 & E2). destruct (read_spec rs RS f i 1 (conj G (conj S0 B)) L0 ltac:(lia)) as (sg' & E1' & E2').
    exists sg, sg'. split; [exact E1|]. split; [exact E1'|]. rewrite E2, E2'. apply map_ext_in. intros j Hj. apply in_zrange in Hj. replace j with i by lia. now apply C2.
Qed.

(** Two appends that share no record: both return, and the later part of the file is not there, because the writer that finishes
    last stores the size it computed from the inode it read at the start. *)
Theorem C42_lost_size_refuted : exists rs f wr ws sch s ws' off data,
  0 < rs /\ reachable rs f /\ calls rs wr ws /\ Forall (fun p => 0 <= fst p /\ snd p <> []) wr /\ apart rs wr /\
  sched rs (begin_state f, ws) sch = Some (s, ws') /\ all_done ws' /\
  In (off, data) wr /\ f_size (end_file s) < off + zlen data /\ read rs (end_file s) off (zlen data) = Some [].
Proof.
  pose (wr := [(0, [1;1;1;1]); (4, [2;2;2;2])]).
  exists 4, new_file, wr, [Writer 0 [[1;1;1;1]] 4 Start; Writer 4 [[2;2;2;2]] 4 Start],
    [(0,0); (1,0); (0,0); (1,0); (1,0); (0,0)]%nat.
  eexists _, _, 4, [2;2;2;2]. split; [lia|]. split; [exists [], []; split; [constructor|reflexivity]|]. split; [repeat constructor|].
  split; [repeat constructor; cbn [fst snd]; try discriminate; vm_compute; congruence|]. split.
  - intros t t' p p' E E' N i j C C'. unfold covers in *. 
    destruct t as [|[|t]], t' as [|[|t']]; try contradiction; try discriminate; cbn in E, E'; try (rewrite nth_error_nil in *; discriminate); try (destruct t; discriminate); try (destruct t'; discriminate);
      injection E as <-; injection E' as <-; unfold zlen in *; cbn [fst snd length] in *.
    + rewrite (Z.div_small i) by lia. intros H. pose proof (Z.div_le_lower_bound j 4 1). lia.
    + rewrite (Z.div_small j) by lia. intros H. pose proof (Z.div_le_lower_bound i 4 1). lia.
  - split; [vm_compute; reflexivity|]. split; [repeat constructor|]. split; [right; left; reflexivity|]. split; reflexivity.
Qed.

(** Two writes to different bytes of one record, inside the file: a byte that one of them wrote and a byte that neither touched are
    lost, because the second finds the record removed. *)
Theorem C42_lost_record_refuted : exists rs f wr ws sch s ws' off data i,
  0 < rs /\ reachable rs f /\ calls rs wr ws /\ Forall (fun p => 0 <= fst p /\ snd p <> [] /\ fst p + zlen (snd p) <= f_size f) wr /\
  (forall p p' x, In p wr -> In p' wr -> covers p x -> covers p' x -> p = p') /\
  sched rs (begin_state f, ws) sch = Some (s, ws') /\ all_done ws' /\
  In (off, data) wr /\ (exists sg, read rs (end_file s) off (zlen data) = Some sg /\ concat sg <> data) /\
  0 <= i < f_size f /\ (forall p, In p wr -> ~ covers p i) /\
  exists sg sg', read rs (end_file s) i 1 = Some sg /\ read rs f i 1 = Some sg' /\ concat sg <> concat sg'.
Proof.
  pose (f := match run 4 new_file [Write 0 [9;9;9;9]] with Some (f, _) => f | None => new_file end).
  vm_compute in f.
  pose (wr := [(0, [1]); (2, [2])]).
  exists 4, f, wr, [Writer 0 [[1]] 1 Start; Writer 2 [[2]] 1 Start], [(0,0); (1,0); (0,0); (1,0); (0,0); (1,0); (0,0); (1,0)]%nat.
  eexists _, _, 0, [1], 1. split; [lia|]. split; [exists [Write 0 [9;9;9;9]], [Count 4]; split; [repeat constructor; cbn [legal]; lia|vm_compute; reflexivity]|].
  split; [repeat constructor|]. split; [repeat constructor; cbn [fst snd]; try discriminate; vm_compute; congruence|]. split.
  { intros p p' x [<-|[<-|[]]] [<-|[<-|[]]]; unfold covers, zlen; cbn [fst snd length]; intros; try reflexivity; lia. }
  split; [vm_compute; reflexivity|]. split; [repeat constructor|]. split; [left; reflexivity|].
  split; [eexists; split; [vm_compute; reflexivity|vm_compute; discriminate]|]. split; [vm_compute; split; congruence|].
  split; [intros p [<-|[<-|[]]]; unfold covers, zlen; cbn [fst snd length]; lia|].
  eexists _, _. split; [vm_compute; reflexivity|]. split; [vm_compute; reflexivity|]. vm_compute. discriminate.
Qed.

(** After two concurrent writes the allocated-bytes attribute does not equal the bytes stored, though all bytes are right. *)
Theorem C35_bytes_concurrent_refuted : exists rs f wr ws sch s ws',
  0 < rs /\ reachable rs f /\ calls rs wr ws /\ Forall (fun p => 0 <= fst p /\ snd p <> [] /\ fst p + zlen (snd p) <= f_size f) wr /\ apart rs wr /\
  sched rs (begin_state f, ws) sch = Some (s, ws') /\ all_done ws' /\
  f_bytes (end_file s) <> fold_right (fun p a => zlen (snd p) + a) 0 (c_ext s).
Proof.
  pose (f := match run 4 new_file [Truncate 8] with Some (f, _) => f | None => new_file end).
  vm_compute in f.
  pose (wr := [(0, [1;1;1;1]); (4, [2;2;2;2])]).
  exists 4, f, wr, [Writer 0 [[1;1;1;1]] 4 Start; Writer 4 [[2;2;2;2]] 4 Start],
    [(0,0); (1,0); (0,0); (1,0); (1,0); (0,0)]%nat.
  eexists _, _. split; [lia|]. split; [exists [Truncate 8]; eexists; split; [repeat constructor; cbn [legal]; lia|vm_compute; reflexivity]|]. split; [repeat constructor|].
  split; [repeat constructor; cbn [fst snd]; try discriminate; vm_compute; congruence|]. split.
  - intros t t' p p' E E' N i j C C'. unfold covers in *. 
    destruct t as [|[|t]], t' as [|[|t']]; try contradiction; try discriminate; cbn in E, E'; try (rewrite nth_error_nil in *; discriminate); try (destruct t; discriminate); try (destruct t'; discriminate);
      injection E as <-; injection E' as <-; unfold zlen in *; cbn [fst snd length] in *.
    + rewrite (Z.div_small i) by lia. intros H. pose proof (Z.div_le_lower_bound j 4 1). lia.
    + rewrite (Z.div_small j) by lia. intros H. pose proof (Z.div_le_lower_bound i 4 1). lia.
  - split; [vm_compute; reflexivity|]. split; [repeat constructor|]. vm_compute. discriminate.
Qed.

(** the hypotheses of the partial theorem are met, with an interleaving that is not serial and writes that are not aligned *)
Definition ex_cf : file := match run 4 new_file [Write 0 [9;9;9;9;9;9;9;9;9;9;9;9;9;9]; Sync; Deallocate 8 4] with Some (f, _) => f | None => new_file end.
Definition ex_wr : list (Z * list Z) := [(1, [1;2;3;4;5]); (9, [7;8;9])].
Example ex_apart : apart 4 ex_wr.
Proof.
  intros t t' p p' E E' N i j C C'. unfold covers in *.
  destruct t as [|[|t]], t' as [|[|t']]; try contradiction; try discriminate; cbn in E, E'; try (rewrite nth_error_nil in *; discriminate); try (destruct t; discriminate); try (destruct t'; discriminate);
    injection E as <-; injection E' as <-; unfold zlen in *; cbn [fst snd length] in *.
  - pose proof (Z.div_le_lower_bound j 4 2). pose proof (Z.div_lt_upper_bound i 4 2). lia.
  - pose proof (Z.div_le_lower_bound i 4 2). pose proof (Z.div_lt_upper_bound j 4 2). lia.
Qed.
Example ex_concurrent :
  reachable 4 ex_cf /\
  match new_writer 4 1 [1;2;3;4;5], new_writer 4 9 [7;8;9] with
  | Some a, Some b =>
      match sched 4 (begin_state ex_cf, [a; b]) [(0,0);(1,0);(0,1);(1,0);(0,0);(1,0);(0,1);(0,0);(1,0);(0,0)]%nat with
      | Some (s, ws) => forallb (fun w => match w_phase w with FileConc_Model.Done => true | _ => false end) ws = true /\
          option_map (@concat Z) (read 4 (end_file s) 0 14) = Some [9;1;2;3;4;5;9;9;0;7;8;9;9;9]
      | None => False
      end
  | _, _ => False
  end.
Proof.
  split; [exists [Write 0 [9;9;9;9;9;9;9;9;9;9;9;9;9;9]; Sync; Deallocate 8 4]; eexists; split; [repeat constructor; cbn [legal]; lia|vm_compute; reflexivity]|].
  vm_compute. auto.
Qed.

Print Assumptions C42_disjoint_writes_partial.
Print Assumptions C42_lost_size_refuted.
Print Assumptions C42_lost_record_refuted.
Print Assumptions C35_bytes_concurrent_refuted.
