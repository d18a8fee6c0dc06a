(** GF(2^8) is a field; the encoding matrices of the codec. *)
From Verif Require Import Common Codec_Model Codec_Proofs.
From Coq Require Import Field_theory Ring_theory Eqdep_dec Permutation.

Lemma all256 (P : Z -> bool) : forallb P (zseq 0 256) = true -> forall z, byteb z = true -> P z = true.
Proof. intros H z Hz. rewrite forallb_forall in H. apply H. apply in_zseq. unfold byteb in Hz. lia. Qed.
Lemma all255 (P : nat -> bool) : forallb P (seq 0 255) = true -> forall n, (n < 255)%nat -> P n = true.
Proof. intros H n Hn. rewrite forallb_forall in H. apply H. apply in_seq. lia. Qed.

Lemma lxor_byte a b : byteb a = true -> byteb b = true -> byteb (Z.lxor a b) = true.
Proof.
  intros Ha Hb. assert (X : forallb (fun a => forallb (fun b => byteb (Z.lxor a b)) (zseq 0 256)) (zseq 0 256) = true) by (vm_compute; reflexivity).
  pose proof (all256 _ X a Ha) as Y. cbn beta in Y. exact (all256 _ Y b Hb).
Qed.
Lemma xtime_lxor a b : byteb a = true -> byteb b = true -> xtime (Z.lxor a b) = Z.lxor (xtime a) (xtime b).
Proof.
  intros Ha Hb. assert (X : forallb (fun a => forallb (fun b => xtime (Z.lxor a b) =? Z.lxor (xtime a) (xtime b)) (zseq 0 256)) (zseq 0 256) = true) by (vm_compute; reflexivity).
  pose proof (all256 _ X a Ha) as Y. cbn beta in Y. apply Z.eqb_eq. exact (all256 _ Y b Hb).
Qed.
Lemma xtime_byte a : byteb a = true -> byteb (xtime a) = true.
Proof. apply (all256 (fun a => byteb (xtime a))). vm_compute. reflexivity. Qed.
Lemma gexp_ok n : (n < 255)%nat -> byteb (gexp n) = true /\ gexp n <> 0 /\ glog (gexp n) = n /\ xtime (gexp n) = gexp (if (n =? 254)%nat then O else S n).
Proof.
  intros Hn. assert (X : forallb (fun n => byteb (gexp n) && negb (gexp n =? 0) && (glog (gexp n) =? n)%nat && (xtime (gexp n) =? gexp (if (n =? 254)%nat then O else S n))) (seq 0 255) = true) by (vm_compute; reflexivity).
  pose proof (all255 _ X n Hn) as Y. cbn beta in Y. rewrite !andb_true_iff, negb_true_iff, Z.eqb_neq, Nat.eqb_eq, Z.eqb_eq in Y. tauto.
Qed.
Lemma glog_ok z : byteb z = true -> z <> 0 -> (glog z < 255)%nat /\ gexp (glog z) = z.
Proof.
  intros Hz N. assert (X : forallb (fun z => (z =? 0) || ((glog z <? 255)%nat && (gexp (glog z) =? z))) (zseq 0 256) = true) by (vm_compute; reflexivity).
  pose proof (all256 _ X z Hz) as Y. cbn beta in Y. rewrite orb_true_iff, andb_true_iff, Nat.ltb_lt, !Z.eqb_eq in Y. tauto.
Qed.
Arguments gexp : simpl never.
Arguments glog : simpl never.

Definition wrap (i : nat) : nat := if (254 <? i)%nat then (i - 255)%nat else i.
Lemma wrap_lt i : (i < 510)%nat -> (wrap i < 255)%nat.
Proof. unfold wrap. intros. destruct (254 <? i)%nat eqn:E; lia. Qed.
Lemma mulZ_exp n j : (n < 255)%nat -> (j < 255)%nat -> mulZ (gexp n) (gexp j) = gexp (wrap (n + j)).
Proof.
  intros Hn Hj. destruct (gexp_ok n Hn) as (_ & N1 & L1 & _), (gexp_ok j Hj) as (_ & N2 & L2 & _). unfold mulZ, wrap. rewrite L1, L2.
  destruct (Z.eqb_spec (gexp n) 0); [contradiction|]. destruct (Z.eqb_spec (gexp j) 0); [contradiction|]. reflexivity.
Qed.
Lemma iterate_exp n j : (n < 255)%nat -> (j < 255)%nat -> iterate n xtime (gexp j) = gexp (wrap (n + j)).
Proof.
  intros Hn Hj. induction n as [|n IH]; cbn [iterate].
  - unfold wrap. destruct (254 <? 0 + j)%nat eqn:E; [lia|]. reflexivity.
  - rewrite IH by lia. assert (W : (wrap (n + j) < 255)%nat) by (apply wrap_lt; lia). destruct (gexp_ok _ W) as (_ & _ & _ & ->). f_equal. unfold wrap. destruct (Nat.ltb_spec 254 (n + j)), (Nat.ltb_spec 254 (S n + j)); match goal with |- context [(?a =? 254)%nat] => destruct (Nat.eqb_spec a 254) end; lia.
Qed.
Lemma iterate_0 n : iterate n xtime 0 = 0.
Proof. induction n as [|n IH]; [reflexivity|]. cbn [iterate]. now rewrite IH. Qed.
Lemma iterate_lxor n a b : byteb a = true -> byteb b = true -> iterate n xtime (Z.lxor a b) = Z.lxor (iterate n xtime a) (iterate n xtime b) /\ byteb (iterate n xtime a) = true.
Proof.
  intros Ha Hb. induction n as [|n [IH IHa]]; cbn [iterate]; [auto|]. split; [|now apply xtime_byte]. rewrite IH. apply xtime_lxor; [exact IHa|].
  clear - Hb. induction n as [|n IH]; cbn [iterate]; [exact Hb|now apply xtime_byte].
Qed.
Lemma mulZ_0_r a : mulZ a 0 = 0.
Proof. unfold mulZ. rewrite orb_true_r. reflexivity. Qed.
Lemma mulZ_0_l a : mulZ 0 a = 0.
Proof. reflexivity. Qed.
Lemma mulZ_iter n b : (n < 255)%nat -> byteb b = true -> mulZ (gexp n) b = iterate n xtime b.
Proof.
  intros Hn Hb. destruct (Z.eq_dec b 0) as [->|N]; [now rewrite mulZ_0_r, iterate_0|]. destruct (glog_ok b Hb N) as [L E]. rewrite <- E at 1 2. rewrite mulZ_exp, iterate_exp by assumption. reflexivity.
Qed.
Lemma mulZ_byte a b : byteb a = true -> byteb b = true -> byteb (mulZ a b) = true.
Proof.
  intros Ha Hb. destruct (Z.eq_dec a 0) as [->|Na]; [reflexivity|]. destruct (Z.eq_dec b 0) as [->|Nb]; [now rewrite mulZ_0_r|].
  destruct (glog_ok a Ha Na) as [La Ea], (glog_ok b Hb Nb) as [Lb Eb]. rewrite <- Ea, <- Eb, mulZ_exp by assumption. apply gexp_ok. apply wrap_lt. lia.
Qed.
Lemma mulZ_comm a b : mulZ a b = mulZ b a.
Proof. unfold mulZ. rewrite orb_comm, Nat.add_comm. reflexivity. Qed.
Lemma mulZ_assoc a b c : byteb a = true -> byteb b = true -> byteb c = true -> mulZ a (mulZ b c) = mulZ (mulZ a b) c.
Proof.
  intros Ha Hb Hc. destruct (Z.eq_dec a 0) as [->|Na]; [reflexivity|]. destruct (Z.eq_dec b 0) as [->|Nb]; [now rewrite (mulZ_0_r a), !mulZ_0_l, mulZ_0_r|]. destruct (Z.eq_dec c 0) as [->|Nc]; [now rewrite !mulZ_0_r|].
  destruct (glog_ok a Ha Na) as [La Ea], (glog_ok b Hb Nb) as [Lb Eb], (glog_ok c Hc Nc) as [Lc Ec]. rewrite <- Ea, <- Eb, <- Ec.
  rewrite (mulZ_exp (glog b)), (mulZ_exp (glog a) (glog b)) by assumption. rewrite !mulZ_exp by (auto; apply wrap_lt; lia). f_equal. unfold wrap. destruct (254 <? glog b + glog c)%nat eqn:E1, (254 <? glog a + glog b)%nat eqn:E2;
    repeat match goal with |- context [if ?b then _ else _] => destruct b eqn:? end; lia.
Qed.
Lemma mulZ_lxor a b c : byteb a = true -> byteb b = true -> byteb c = true -> mulZ a (Z.lxor b c) = Z.lxor (mulZ a b) (mulZ a c).
Proof.
  intros Ha Hb Hc. destruct (Z.eq_dec a 0) as [->|Na]; [reflexivity|]. destruct (glog_ok a Ha Na) as [La Ea]. rewrite <- Ea. rewrite !mulZ_iter by (auto using lxor_byte). now apply iterate_lxor.
Qed.
Lemma mulZ_1 a : byteb a = true -> mulZ 1 a = a.
Proof. intros Ha. change 1 with (gexp 0). rewrite mulZ_iter by (auto; lia). reflexivity. Qed.
Lemma invZ_ok a : byteb a = true -> a <> 0 -> byteb (invZ a) = true /\ mulZ (invZ a) a = 1.
Proof.
  intros Ha Na. assert (X : forallb (fun a => (a =? 0) || (byteb (invZ a) && (mulZ (invZ a) a =? 1))) (zseq 0 256) = true) by (vm_compute; reflexivity).
  pose proof (all256 _ X a Ha) as Y. cbn beta in Y. rewrite orb_true_iff, andb_true_iff, !Z.eqb_eq in Y. tauto.
Qed.

Lemma gf_eq a b : gz a = gz b -> a = b.
Proof. destruct a as [a Ha], b as [b Hb]. cbn. intros <-. f_equal. apply UIP_dec. apply bool_dec. Qed.
Lemma of_Z_byte z : byteb z = true -> gz (of_Z z) = z.
Proof. intros H. cbn. apply Z.mod_small. unfold byteb in H. lia. Qed.
Lemma of_gz a : of_Z (gz a) = a.
Proof. apply gf_eq. apply of_Z_byte. apply gok. Qed.
Lemma gz_add a b : gz (gadd a b) = Z.lxor (gz a) (gz b).
Proof. apply of_Z_byte. apply lxor_byte; apply gok. Qed.
Lemma gz_mul a b : gz (gmul a b) = mulZ (gz a) (gz b).
Proof. apply of_Z_byte. apply mulZ_byte; apply gok. Qed.
Lemma gz_0 : gz g0 = 0. Proof. reflexivity. Qed.
Lemma gz_1 : gz g1 = 1. Proof. reflexivity. Qed.

Lemma gf_ring : ring_theory g0 g1 gadd gmul gadd (fun x => x) (@eq gf).
Proof.
  constructor; intros; apply gf_eq; rewrite ?gz_add, ?gz_mul, ?gz_add, ?gz_mul, ?gz_0, ?gz_1.
  - apply Z.lxor_0_l.
  - apply Z.lxor_comm.
  - now rewrite Z.lxor_assoc.
  - apply mulZ_1, gok.
  - apply mulZ_comm.
  - apply mulZ_assoc; apply gok.
  - rewrite mulZ_comm, mulZ_lxor by apply gok. now rewrite (mulZ_comm (gz z)), (mulZ_comm (gz z)).
  - reflexivity.
  - apply Z.lxor_nilpotent.
Qed.
Lemma gf_field : field_theory g0 g1 gadd gmul gadd (fun x => x) (fun a b => gmul a (ginv b)) ginv (@eq gf).
Proof.
  constructor.
  - exact gf_ring.
  - intros H. apply (f_equal gz) in H. discriminate.
  - reflexivity.
  - intros p Np. assert (N : gz p <> 0) by (intros H; apply Np, gf_eq; exact H). destruct (invZ_ok (gz p) (gok p) N) as [B E]. apply gf_eq. rewrite gz_mul. unfold ginv. rewrite of_Z_byte by exact B. exact E.
Qed.
Lemma gnz_ok x : gnz x = false <-> x = g0.
Proof. unfold gnz. rewrite negb_false_iff, Z.eqb_eq. split; [intros H; apply gf_eq; exact H|intros ->; reflexivity]. Qed.

(** * Which rows decode *)
Lemma healthy_spec er : forall cand n, NoDup cand -> (n <= length (filter (fun r => negb (er r)) cand))%nat ->
  exists hs, healthy er cand n = Some hs /\ length hs = n /\ NoDup hs /\ incl hs cand /\ Forall (fun r => er r = false) hs.
Proof.
  induction cand as [|r cand IH]; intros n ND H.
  - destruct n; [|cbn in H; lia]. exists []. split; [reflexivity|]. split; [reflexivity|]. split; [constructor|]. split; [intros x []|constructor].
  - destruct n as [|n]; [exists []; split; [reflexivity|]; split; [reflexivity|]; split; [constructor|]; split; [intros x []|constructor]|]. inversion ND as [|? ? Nr ND']; subst. cbn [healthy filter] in *. destruct (er r) eqn:E; cbn [negb] in H.
    + destruct (IH (S n) ND' H) as (hs & -> & L & N & I & Fo). exists hs. repeat split; auto. intros x Hx. right. auto.
    + cbn [length] in H. destruct (IH n ND' ltac:(lia)) as (hs & -> & L & N & I & Fo). exists (r :: hs). repeat split.
      * cbn. lia.
      * constructor; [|exact N]. intros X. apply Nr. auto.
      * intros x [->|X]; [left; reflexivity|right; auto].
      * constructor; auto.
Qed.
(** the codec always chooses the lowest healthy columns *)
Lemma healthy_lowest er : forall cand n hs, healthy er cand n = Some hs -> hs = firstn n (filter (fun r => negb (er r)) cand).
Proof.
  induction cand as [|r cand IH]; intros [|n] hs H; cbn [healthy filter] in *; try discriminate; try (injection H as <-; reflexivity). destruct (er r); cbn [negb]; [now apply IH|].
  destruct (healthy er cand n) as [l|] eqn:E; [|discriminate]. injection H as <-. cbn [firstn]. f_equal. now apply IH.
Qed.

Lemma ident_length k : length (ident g0 g1 k) = k.
Proof. unfold ident. now rewrite map_length, seq_length. Qed.
Lemma nth_ident k r : (r < k)%nat -> nth r (ident g0 g1 k) [] = unit_row g0 g1 k r.
Proof. intros H. unfold ident. now apply nth_map_seq. Qed.
Lemma enc_data_row m f r : (r < m - f)%nat -> nth r (enc_matrix m f) [] = unit_row g0 g1 (m - f) r.
Proof. intros H. unfold enc_matrix. rewrite app_nth1 by (rewrite ident_length; exact H). now apply nth_ident. Qed.
Lemma enc_parity_row m f r : (m - f <= r < m)%nat -> (f <= m)%nat -> nth r (enc_matrix m f) [] = parity_row (m - f) f r.
Proof.
  intros H Hf. unfold enc_matrix. rewrite app_nth2 by (rewrite ident_length; lia). rewrite ident_length. rewrite (nth_indep _ [] (parity_row (m - f) f O)) by (rewrite map_length, seq_length; lia). rewrite map_nth, seq_nth by lia. f_equal. lia.
Qed.
Lemma parity_row_length k f i : length (parity_row k f i) = k.
Proof. unfold parity_row. destruct (f =? 1)%nat; [apply repeat_length|]. now rewrite map_length, seq_length. Qed.
Lemma enc_row_length m f r : (r < m)%nat -> (f <= m)%nat -> length (nth r (enc_matrix m f) []) = (m - f)%nat.
Proof.
  intros H Hf. destruct (Nat.lt_ge_cases r (m - f)); [rewrite enc_data_row by assumption; unfold unit_row; now rewrite map_length, seq_length|]. rewrite enc_parity_row by lia. apply parity_row_length.
Qed.

Notation gdot := (dot g0 gadd gmul).
Definition idx (n : nat) : gf := of_Z (Z.of_nat n).
Lemma idx_inj a b : (a < 256)%nat -> (b < 256)%nat -> idx a = idx b -> a = b.
Proof. intros Ha Hb E. apply (f_equal gz) in E. unfold idx in E. rewrite !of_Z_byte in E by (unfold byteb; lia). lia. Qed.

(** a row times a vector, as a sum over the positions where the vector may be nonzero *)
Lemma dot_csum : forall (g : nat -> gf) n s x (z : nat -> bool), length x = n -> (forall j, (j < n)%nat -> z (s + j)%nat = true -> nth j x g0 = g0) ->
  gdot (map g (seq s n)) x = csum g0 gadd gmul (fun p => p) (map (fun j => (g j, nth (j - s) x g0)) (filter (fun j => negb (z j)) (seq s n))).
Proof.
  induction n as [|n IH]; intros s [|y x] z L Hz; try discriminate L; [reflexivity|]. injection L as L. cbn [seq map dot filter].
  assert (IH' := IH (S s) x z L). rewrite IH'.
  2:{ intros j Hj Hz'. specialize (Hz (S j) ltac:(lia)). cbn [nth] in Hz. apply Hz. replace (s + S j)%nat with (S s + j)%nat by lia. exact Hz'. }
  assert (Tail : map (fun j => (g j, nth (j - s) (y :: x) g0)) (filter (fun j => negb (z j)) (seq (S s) n)) = map (fun j => (g j, nth (j - S s) x g0)) (filter (fun j => negb (z j)) (seq (S s) n))).
  { apply map_ext_in. intros j Ij. apply filter_In in Ij. destruct Ij as [Ij _]. apply in_seq in Ij. replace (j - s)%nat with (S (j - S s)) by lia. reflexivity. }
  destruct (z s) eqn:Zs; cbn [negb].
  - assert (Y : y = g0) by (specialize (Hz O ltac:(lia)); cbn [nth] in Hz; apply Hz; now rewrite Nat.add_0_r). subst y. rewrite Tail. apply gf_eq. rewrite gz_add, gz_mul. cbn [gz_0]. rewrite gz_0, mulZ_0_r. apply Z.lxor_0_l.
  - cbn [map csum]. rewrite Tail. rewrite Nat.sub_diag. cbn [nth]. f_equal. apply gf_eq. rewrite !gz_mul. apply mulZ_comm.
Qed.

Lemma filter_split {A} (p : A -> bool) l : (length l = length (filter p l) + length (filter (fun x => negb (p x)) l))%nat.
Proof. induction l as [|x l IH]; [reflexivity|]. cbn [filter]. destruct (p x); cbn [negb length]; lia. Qed.
Lemma csum_map_fst {A} (g : A -> gf) (h : gf -> gf) (w : A -> gf) l :
  csum g0 gadd gmul h (map (fun j => (g j, w j)) l) = csum g0 gadd gmul (fun p => p) (map (fun j => (h (g j), w j)) l).
Proof. induction l as [|x l IH]; [reflexivity|]. cbn [map csum]. now rewrite IH. Qed.

(** Any k distinct rows of the encoding matrix determine the data. *)
Lemma rows_injective m f hs : (1 <= f)%nat -> (f < m)%nat -> (m <= 256)%nat -> length hs = (m - f)%nat -> NoDup hs -> Forall (fun r => (r < m)%nat) hs ->
  injective g0 gadd gmul (m - f) (map (fun r => nth r (enc_matrix m f) []) hs).
Proof.
  intros F1 Fm M256 L ND Rng x Lx K. set (k := (m - f)%nat) in *. rewrite map_map, map_length in K.
  assert (K' : forall r, In r hs -> gdot (nth r (enc_matrix m f) []) x = g0).
  { intros r Ir. apply (In_nth _ _ O) in Ir. destruct Ir as (p & Lp & <-). apply (f_equal (fun l => nth p l g0)) in K. rewrite nth_repeat in K. rewrite (nth_indep _ g0 (gdot (nth O (enc_matrix m f) []) x)) in K by (rewrite map_length; exact Lp).
    rewrite (map_nth (fun r => gdot (nth r (enc_matrix m f) []) x)) in K. exact K. }
  assert (Dz : forall j, In j hs -> (j < k)%nat -> nth j x g0 = g0).
  { intros j Ij Hj. pose proof (K' j Ij) as X. rewrite enc_data_row in X by exact Hj. rewrite (dot_unit g0 g1 gadd gmul gadd _ _ _ gf_field gnz gnz_ok) in X; auto. }
  pose (z := fun j : nat => existsb (Nat.eqb j) hs).
  assert (Zin : forall j, z j = true <-> In j hs). { intros j. unfold z. rewrite existsb_exists. split; [intros (y & Iy & E); apply Nat.eqb_eq in E; now subst|intros I; exists j; split; [exact I|apply Nat.eqb_refl]]. }
  pose (E := filter (fun j => negb (z j)) (seq 0 k)). pose (P := filter (fun r => (k <=? r)%nat) hs).
  assert (LEP : (length E <= length P)%nat).
  { assert (A1 : (length (filter z (seq 0 k)) = length (filter (fun r => negb (k <=? r)%nat) hs))%nat).
    { apply Permutation_length. apply NoDup_Permutation; [apply NoDup_filter, seq_NoDup|now apply NoDup_filter|]. intros j. rewrite !filter_In, in_seq, Zin, negb_true_iff, Nat.leb_gt. split; [intros [H1 H2]; split; [auto|lia]|intros [H1 H2]; split; [lia|auto]]. }
    pose proof (filter_split z (seq 0 k)) as B1. rewrite seq_length in B1. pose proof (filter_split (fun r => (k <=? r)%nat) hs) as B2. fold E in B1. fold P in B2. lia. }
  assert (Ez : forall j, In j E -> nth j x g0 = g0).
  { destruct (Nat.eqb_spec f 1) as [->|N1].
    - (* one parity row of ones *)
      destruct E as [|j0 [|j1 E']] eqn:EE.
      + intros j [].
      + destruct P as [|p P'] eqn:EP; [cbn in LEP; lia|]. assert (Ip : In p hs /\ (k <= p)%nat). { assert (I0 : In p P) by (rewrite EP; left; reflexivity). apply filter_In in I0. rewrite Nat.leb_le in I0. exact I0. }
        destruct Ip as [Ip Lp]. pose proof (K' p Ip) as Kp. pose proof (proj1 (Forall_forall _ _) Rng p Ip) as Rp. cbn beta in Rp. rewrite enc_parity_row in Kp by lia. fold k in Kp. unfold parity_row in Kp. cbn [Nat.eqb] in Kp.
        assert (Er : repeat g1 k = map (fun _ : nat => g1) (seq 0 k)). { clear. generalize O. induction k as [|k IH]; intros s; [reflexivity|]. cbn [repeat seq map]. now rewrite <- IH. }
        rewrite Er, (dot_csum _ _ _ _ z Lx) in Kp by (intros j Hj Hzj; apply Dz; [apply Zin; exact Hzj|exact Hj]). fold E in Kp. rewrite EE in Kp. cbn [map csum] in Kp. rewrite Nat.sub_0_r in Kp.
        intros j [<-|[]]. apply gf_eq. apply (f_equal gz) in Kp. rewrite gz_add, gz_mul, gz_0, gz_1, Z.lxor_0_r, mulZ_comm, mulZ_1 in Kp by apply gok. exact Kp.
      + exfalso. assert (LP : (length P <= 1)%nat). { assert (X : incl P [k]). { intros p Ip. apply filter_In in Ip. rewrite Nat.leb_le in Ip. destruct Ip as [I1 I2]. pose proof (proj1 (Forall_forall _ _) Rng p I1). cbn beta in H. left. unfold k in *. lia. }
          apply (NoDup_incl_length (NoDup_filter _ ND)) in X. exact X. } cbn [length] in LEP. lia.
    - (* Cauchy rows *)
      pose (EC := map (fun j => (idx j, nth j x g0)) E).
      assert (FC : Forall (fun jc : gf * gf => snd jc = g0) EC).
      { apply (cauchy g0 g1 gadd gmul gadd _ _ ginv gf_field gnz gnz_ok EC (map idx P)).
        - unfold EC. rewrite map_map. cbn [fst].
          assert (NE : NoDup E) by (apply NoDup_filter, seq_NoDup). assert (BE : forall j, In j E -> (j < 256)%nat) by (intros j Ij; apply filter_In in Ij; rewrite in_seq in Ij; lia). clear - NE BE.
          induction NE as [|j l Nj NE IH]; [constructor|]. cbn [map]. constructor; [|apply IH; intros; apply BE; right; assumption]. intros X. apply in_map_iff in X. destruct X as (j' & Ej & Ij). apply Nj. rewrite <- (idx_inj j' j); auto; apply BE; [right; exact Ij|left; reflexivity].
        - assert (NP : NoDup P) by (apply NoDup_filter; exact ND). assert (BP : forall j, In j P -> (j < 256)%nat) by (intros j Ij; apply filter_In in Ij; destruct Ij as [Ij _]; pose proof (proj1 (Forall_forall _ _) Rng j Ij); cbn beta in *; lia). clear - NP BP.
          induction NP as [|j l Nj NE IH]; [constructor|]. cbn [map]. constructor; [|apply IH; intros; apply BP; right; assumption]. intros X. apply in_map_iff in X. destruct X as (j' & Ej & Ij). apply Nj. rewrite <- (idx_inj j' j); auto; apply BP; [right; exact Ij|left; reflexivity].
        - unfold EC. now rewrite !map_length.
        - intros i j Ii Ij Eij. unfold EC in Ij. rewrite map_map in Ij. cbn [fst] in Ij. apply in_map_iff in Ii, Ij. destruct Ii as (p & <- & Ip), Ij as (q & Eq & Iq). apply filter_In in Ip, Iq. rewrite in_seq in Iq. rewrite Nat.leb_le in Ip. pose proof (proj1 (Forall_forall _ _) Rng p (proj1 Ip)). cbn beta in *.
          rewrite <- Eq in Eij. apply idx_inj in Eij; lia.
        - intros i Ii. apply in_map_iff in Ii. destruct Ii as (p & <- & Ip). apply filter_In in Ip. rewrite Nat.leb_le in Ip. destruct Ip as [Ip Lp]. pose proof (proj1 (Forall_forall _ _) Rng p Ip) as Rp. cbn beta in Rp.
          pose proof (K' p Ip) as Kp. rewrite enc_parity_row in Kp by lia. fold k in Kp. unfold parity_row in Kp. destruct (Nat.eqb_spec f 1); [contradiction|].
          rewrite (dot_csum _ _ _ _ z Lx) in Kp by (intros j Hj Hzj; apply Dz; [apply Zin; exact Hzj|exact Hj]). fold E in Kp.
          unfold EC. rewrite (csum_map_fst idx (fun j => ginv (gadd (idx p) j))). etransitivity; [|exact Kp]. f_equal. apply map_ext. intros j. now rewrite Nat.sub_0_r. }
      intros j Ij. assert (X : In (idx j, nth j x g0) EC) by (unfold EC; apply in_map_iff; exists j; auto). exact (proj1 (Forall_forall _ _) FC _ X). }
  apply (nth_ext0 g0); [now rewrite repeat_length|]. intros j Hj. rewrite nth_repeat. rewrite Lx in Hj. destruct (z j) eqn:Zj; [apply Dz; [now apply Zin|exact Hj]|]. apply Ez. apply filter_In. rewrite in_seq, Zj. split; [lia|reflexivity].
Qed.
