(** rename, inactive and mount. *)
From Verif Require Import Common HTable_Model HTable_Props Names_Model Names_Dir Names_Proofs Names_Ops.
From Coq Require Import Permutation.

Section Ops.
Context (hash : name -> Z) (dhash : Z -> Z).
Notation InvD := (InvD hash).
Notation WFd := (WFd hash).
Notation N := (N hash).
Notation Inv := (Inv hash dhash).
Notation DyInv := (DyInv dhash).
Notation empty_dir := (empty_dir hash).
Notation d1 b x := (if b : bool then x else 0).

(** one entry is replaced by another *)
Lemma inv_replace s dl rh ex p n i j b l' rest : InvD s dl rh ex -> WFd l' -> Permutation (dents (ents s p)) ((n, (i, b)) :: rest) -> Permutation (dents l') ((n, (j, b)) :: rest) -> proper n = true ->
  (exists v, inodes s j = Some v /\ i_isdir v = b) -> (b = true -> ex j) ->
  InvD (set_ents s p l') (fun k => dl k + (if b then 0 else d1 (k =? i) 1 - d1 (k =? j) 1)) (fun k => rh k + (if b then d1 (k =? j) 1 - d1 (k =? i) 1 else 0)) ex.
Proof.
  intros V W P1 P2 Pn Dj Hex. pose proof (iv_wf _ _ _ _ _ V p) as Wp. assert (Ii : In (n, (i, b)) (dents (ents s p))) by (rewrite P1; now left). pose proof (ents_isdir _ _ _ _ _ _ _ V Ii) as Dp.
  pose proof (dir_remove_spec hash (ents s p) n Wp) as H. destruct (dir_remove hash (ents s p) n) as [r l]. destruct H as [Wl H]. destruct r as [[n' e]| |]; [|destruct H as [H _]; exfalso; exact (H _ Ii)|contradiction]. destruct H as (-> & I & P). pose proof (dents_unique hash _ _ _ _ Wp I Ii) as ->.
  assert (Pr : Permutation rest (dents l)) by (apply (Permutation_cons_inv (a := (n, (i, b)))); rewrite <- P1; exact P).
  pose proof (inv_remove hash s _ _ _ p n i b l V Wl P Pn) as V1.
  pose proof (inv_insert hash (set_ents s p l) _ _ _ p n j b l' V1 W ltac:(rewrite (ents_set_same s p l); rewrite P2; now apply perm_skip) Pn Dp Dj ltac:(intros Eb; left; now apply Hex)) as V2.
  apply (inv_state_ext hash (set_ents (set_ents s p l) p l')).
  - apply (InvD_ext hash _ _ _ _ _ _ _ V2); [|auto]. intros k v _. cbn beta. destruct b; split; lia.
  - intros d. cbn [ents set_ents]. unfold upd. destruct (d =? p); reflexivity.
  - intros d. cbn [ents set_ents]. unfold upd. destruct (d =? p); [exact W|exact (iv_wf _ _ _ _ _ V d)].
  - intros d. cbn [ents set_ents]. unfold upd. destruct (d =? p); auto.
  - reflexivity.
  - reflexivity.
Qed.

Definition replaced (s : fs) (p : Z) (n : name) (np : Z) (nn : name) : option ent := if hit p n np nn then None else N s np nn.
Definition Renames (s : fs) (p fd : Z) (n : name) (b : bool) (np : Z) (nn : name) (s' : fs) : Prop :=
  nexto s' = nexto s /\
  (forall j, kind s' j = match replaced s p n np nn with
                         | Some (v, b') => if (j =? v) && (b' || (refs s v =? 1)) then None else kind s j
                         | None => kind s j
                         end) /\
  (forall d m, N s' d m =
     if match replaced s p n np nn with Some (v, b') => b' && (d =? v) | None => false end then None
     else if hit np nn d m then Some (fd, b)
     else if b && negb (p =? np) && hit fd DOTDOT d m then Some (np, true)
     else if hit p n d m then None else N s d m).

Lemma proper_not_dots n : proper n = true -> name_eqb n DOT || name_eqb n DOTDOT = false.
Proof. unfold proper. destruct (name_eqb n DOT || name_eqb n DOTDOT); [discriminate|reflexivity]. Qed.
Lemma proper_neq n : proper n = true -> n <> DOT /\ n <> DOTDOT.
Proof. intros H. split; intros ->; discriminate. Qed.

(** the part of rename before the destination's old object is dealt with *)
Lemma rename_move s p fd n np nn b l : Inv s -> isdir s p -> isdir s np -> proper n = true -> proper nn = true -> N s p n = Some (fd, b) ->
  (forall v b', N s np nn = Some (v, b') -> b' = b) ->
  WFd l -> Permutation (dents (ents s p)) ((n, (fd, b)) :: dents l) ->
  exists s2 s3, de_insert hash (set_ents s p l) np nn (fd, b) = Some (replaced s p n np nn, s2) /\
    (if b && negb (p =? np) then option_map snd (de_insert hash s2 fd DOTDOT (np, true)) else Some s2) = Some s3 /\
    InvD s3 (fun k => (if b then d1 (k =? p) 1 - (match replaced s p n np nn with Some _ => 0 | None => d1 (k =? np) 1 end) else match replaced s p n np nn with Some (v, _) => d1 (k =? v) 1 | None => 0 end))
            (fun k => if b then match replaced s p n np nn with Some (v, _) => - d1 (k =? v) 1 | None => 0 end else 0) (fun _ => False) /\
    inodes s3 = inodes s /\ dying s3 = dying s /\ nexto s3 = nexto s /\
    (forall d m, N s3 d m = if hit np nn d m then Some (fd, b) else if b && negb (p =? np) && hit fd DOTDOT d m then Some (np, true) else if hit p n d m then None else N s d m).
Proof.
  intros [V Dy] Dp Dnp Pn Pnn En Hb Wl P. pose proof (iv_wf _ _ _ _ _ V p) as Wp. pose proof (proj1 (N_iff hash s p n _ Wp) En) as Ie. destruct (iv_tgt _ _ _ _ _ V _ _ _ _ Ie Pn) as (vf & Evf & Dvf).
  pose proof (inv_remove hash s _ _ _ p n fd b l V Wl P Pn) as V1. remember (set_ents s p l) as s1 eqn:Hs1.
  assert (HN1 : forall d m, N s1 d m = if hit p n d m then None else N s d m) by (intros d m; subst s1; exact (N_rem hash s p n (fd, b) l d m Wp Wl P)).
  assert (Er : N s1 np nn = replaced s p n np nn) by (rewrite HN1; reflexivity).
  assert (V1' : InvD s1 (fun k => if b then d1 (k =? p) 1 else d1 (k =? fd) 1) (fun k => if b then - d1 (k =? fd) 1 else 0) (fun k => b = true /\ k = fd)).
  { apply (InvD_ext hash _ _ _ _ _ _ _ V1); [|contradiction]. intros k v _. cbn beta. destruct b; split; lia. }
  assert (Dnp1 : isdir s1 np) by (subst s1; exact Dnp). assert (Df1 : exists v, inodes s1 fd = Some v /\ i_isdir v = b) by (subst s1; eauto). assert (I1 : inodes s1 = inodes s) by (subst s1; reflexivity). assert (Dy1 : dying s1 = dying s) by (subst s1; reflexivity). assert (Nx1 : nexto s1 = nexto s) by (subst s1; reflexivity).
  clear Hs1.
  assert (R1 : b = true -> refs s1 fd = 0). { intros ->. destruct (iv_dir _ _ _ _ _ V fd vf Evf Dvf) as [A _]. rewrite <- I1 in Evf. destruct (iv_dir _ _ _ _ _ V1' fd vf Evf Dvf) as [B _]. cbn beta in B. rewrite Z.eqb_refl in B. pose proof (isdir_rng _ _ _ _ _ _ V Dp). pose proof (refs_pos s p n fd true ltac:(lia) Ie Pn). destruct (fd =? 1); lia. }
  (* 2: insertion *)
  assert (H2 : exists s2, de_insert hash s1 np nn (fd, b) = Some (replaced s p n np nn, s2) /\
     InvD s2 (fun k => (if b then d1 (k =? p) 1 - (match replaced s p n np nn with Some _ => 0 | None => d1 (k =? np) 1 end) else match replaced s p n np nn with Some (v, _) => d1 (k =? v) 1 | None => 0 end))
            (fun k => if b then match replaced s p n np nn with Some (v, _) => - d1 (k =? v) 1 | None => 0 end else 0) (fun k => b = true /\ k = fd) /\
     inodes s2 = inodes s /\ dying s2 = dying s /\ nexto s2 = nexto s /\ (forall d m, N s2 d m = if hit np nn d m then Some (fd, b) else N s1 d m)).
  { pose proof (iv_wf _ _ _ _ _ V1' np) as Wnp. destruct (replaced s p n np nn) as [[v b']|] eqn:Erp.
    - assert (b' = b). { apply (Hb v). unfold replaced in Erp. destruct (hit p n np nn); [discriminate|exact Erp]. } subst b'.
      destruct (de_insert_old hash s1 np nn (fd, b) (v, b) Wnp Er) as (l2 & rest & E2 & W2 & P2 & P2'). eexists. split; [exact E2|]. split; [|split; [exact I1|split; [exact Dy1|split; [exact Nx1|]]]].
      + pose proof (inv_replace s1 _ _ _ np nn v fd b l2 rest V1' W2 P2 P2' Pnn Df1 (fun Eb => conj Eb eq_refl)) as V2. apply (InvD_ext hash _ _ _ _ _ _ _ V2); [|auto]. intros k w _. cbn beta. destruct b; split; lia.
      + intros d m. exact (N_ins hash s1 np nn (fd, b) l2 rest d m Wnp W2 (or_intror (ex_intro _ _ P2)) P2').
    - destruct (de_insert_new hash s1 np nn (fd, b) Wnp Er) as (l2 & E2 & W2 & P2). eexists. split; [exact E2|]. split; [|split; [exact I1|split; [exact Dy1|split; [exact Nx1|]]]].
      + pose proof (inv_insert hash s1 _ _ _ np nn fd b l2 V1' W2 P2 Pnn Dnp1 Df1 (fun Eb => or_introl (conj Eb eq_refl))) as V2. apply (InvD_ext hash _ _ _ _ _ _ _ V2); [|auto]. intros k w _. cbn beta. destruct b; split; lia.
      + intros d m. exact (N_ins hash s1 np nn (fd, b) l2 _ d m Wnp W2 (or_introl (conj (Permutation_refl _) (proj1 (N_none hash s1 np nn Wnp) Er))) P2). }
  destruct H2 as (s2 & E2 & V2 & I2 & Dy2 & Nx2 & HN2). exists s2.
  (* 3c *)
  assert (Only : forall q m e, N s2 q m = Some (fd, e) -> b = true -> proper m = true -> q = np).
  { intros q m e E Eb Pm. rewrite HN2 in E. destruct (hit_spec np nn q m) as [[-> _]|]; [reflexivity|]. exfalso. apply (N_iff hash) in E; [|exact (iv_wf _ _ _ _ _ V1' q)]. pose proof (isdir_rng _ _ _ _ _ _ V1' (ents_isdir _ _ _ _ _ _ _ V1' E)). pose proof (refs_pos s1 q m fd e ltac:(lia) E Pm). rewrite (R1 Eb) in *. lia. }
  destruct b.
  2:{ cbn [andb]. exists s2. split; [exact E2|]. split; [reflexivity|]. split; [apply (InvD_ext hash _ _ _ _ _ _ _ V2); [auto|intros k [X _]; discriminate]|]. split; [exact I2|]. split; [exact Dy2|]. split; [exact Nx2|].
      intros d m. rewrite HN2, HN1. destruct (hit np nn d m); reflexivity. }
  destruct (proper_neq n Pn) as [Nd Ndd]. destruct (proper_neq nn Pnn) as [Nnd Nndd].
  assert (OldDots : In (DOT, (fd, true)) (dents (ents s fd)) /\ In (DOTDOT, (p, true)) (dents (ents s fd))).
  { split; [apply (iv_dot _ _ _ _ _ V fd vf Evf Dvf); tauto|]. exact (iv_par _ _ _ _ _ V p n fd Ie Pn ltac:(tauto)). }
  pose proof (iv_wf _ _ _ _ _ V fd) as Wfd0. rewrite <- !(N_iff hash s fd) in OldDots by exact Wfd0. destruct OldDots as [Od Odd].
  assert (Od2 : N s2 fd DOT = Some (fd, true)). { rewrite HN2, HN1. destruct (hit_spec np nn fd DOT) as [[_ X]|]; [congruence|]. destruct (hit_spec p n fd DOT) as [[_ X]|]; [congruence|exact Od]. }
  assert (Odd2 : N s2 fd DOTDOT = Some (p, true)). { rewrite HN2, HN1. destruct (hit_spec np nn fd DOTDOT) as [[_ X]|]; [congruence|]. destruct (hit_spec p n fd DOTDOT) as [[_ X]|]; [congruence|exact Odd]. }
  cbn [andb]. destruct (Z.eqb_spec p np) as [Epn|Hpn]; cbn [negb andb].
  - exists s2. split; [exact E2|]. split; [reflexivity|]. split; [|split; [exact I2|split; [exact Dy2|split; [exact Nx2|intros d m; rewrite HN2, HN1; reflexivity]]]].
    pose proof (iv_wf _ _ _ _ _ V2 fd) as W2. pose proof (inv_unexempt hash s2 _ _ _ fd V2 (proj1 (N_iff hash s2 fd DOT _ W2) Od2) (ex_intro _ p (proj1 (N_iff hash s2 fd DOTDOT _ W2) Odd2))
      ltac:(intros q m J Pm; apply (N_iff hash) in J; [|exact (iv_wf _ _ _ _ _ V2 q)]; rewrite (Only q m true J eq_refl Pm), <- Epn; exact (proj1 (N_iff hash s2 fd DOTDOT _ W2) Odd2))) as V3.
    apply (InvD_ext hash _ _ _ _ _ _ _ V3); [auto|]. intros k [[_ X] Y]. contradiction.
  - destruct (de_insert_old hash s2 fd DOTDOT (np, true) (p, true) (iv_wf _ _ _ _ _ V2 fd) Odd2) as (l3 & rest & E3 & W3 & P3 & P3'). rewrite E3. cbn [option_map snd]. eexists. split; [exact E2|]. split; [reflexivity|].
    assert (Dfd2 : isdir s2 fd) by (exists vf; rewrite I2; auto). pose proof (inv_dots hash s2 _ _ _ fd DOTDOT np l3 rest V2 W3 (or_intror (ex_intro _ _ P3)) P3' Dfd2 ltac:(right; auto)) as V3.
    assert (HN3 : forall d m, N (set_ents s2 fd l3) d m = if hit fd DOTDOT d m then Some (np, true) else N s2 d m) by (intros d m; exact (N_ins hash s2 fd DOTDOT (np, true) l3 rest d m (iv_wf _ _ _ _ _ V2 fd) W3 (or_intror (ex_intro _ _ P3)) P3')).
    split; [|split; [exact I2|split; [exact Dy2|split; [exact Nx2|]]]].
    + pose proof (iv_wf _ _ _ _ _ V3 fd) as W3'. assert (Hdd : In (DOTDOT, (np, true)) (dents (ents (set_ents s2 fd l3) fd))). { apply (N_iff hash _ fd DOTDOT _ W3'). rewrite HN3. destruct (hit_spec fd DOTDOT fd DOTDOT); tauto. }
      pose proof (inv_unexempt hash (set_ents s2 fd l3) _ _ _ fd V3 ltac:(apply (N_iff hash _ fd DOT _ W3'); rewrite HN3; destruct (hit_spec fd DOTDOT fd DOT) as [[_ X]|]; [discriminate|exact Od2]) (ex_intro _ np Hdd)
        ltac:(intros q m J Pm; apply (N_iff hash) in J; [|exact (iv_wf _ _ _ _ _ V3 q)]; rewrite HN3 in J; destruct (hit_spec fd DOTDOT q m) as [[_ X]|]; [rewrite X in Pm; discriminate|]; rewrite (Only q m true J eq_refl Pm); exact Hdd)) as V4.
      apply (InvD_ext hash _ _ _ _ _ _ _ V4); [auto|]. intros k [[_ X] Y]. contradiction.
    + intros d m. rewrite HN3, HN2, HN1. destruct (hit_spec fd DOTDOT d m) as [[-> ->]|]; [|reflexivity]. destruct (hit_spec np nn fd DOTDOT) as [[_ X]|]; [congruence|reflexivity].
Qed.

Lemma dy_nlink s s' p v x : DyInv s -> inodes s p = Some v -> i_isdir v = true -> inodes s' = upd (inodes s) p (Some (Inode (i_isdir v) x)) -> dying s' = dying s -> DyInv s'.
Proof.
  intros Dy Ev Dv Ei Ed. apply (dy_same dhash s s' Dy Ed); rewrite Ei; unfold upd; intros j w; destruct (Z.eqb_spec j p) as [->|]; auto; [intros; congruence|intros E; injection E as <-; cbn; congruence].
Qed.
Lemma kind_nlink s s' p v x j : inodes s p = Some v -> inodes s' = upd (inodes s) p (Some (Inode (i_isdir v) x)) -> kind s' j = kind s j.
Proof. intros Ev Ei. unfold kind. rewrite Ei. unfold upd. destruct (Z.eqb_spec j p) as [->|]; [rewrite Ev|]; reflexivity. Qed.

(** the end of rename: the two link counts *)
Lemma rename_end s dl p np x y : InvD s dl (fun _ => 0) (fun _ => False) -> DyInv s -> isdir s p -> isdir s np ->
  (forall k, dl k + d1 (k =? p) x + (if p =? np then 0 else d1 (k =? np) y) = 0) ->
  exists s4 s5, add_nlink s p x = Some s4 /\ (if negb (p =? np) then add_nlink s4 np y else Some s4) = Some s5 /\ Inv s5 /\ nexto s5 = nexto s /\ (forall j, kind s5 j = kind s j) /\ (forall d m, N s5 d m = N s d m).
Proof.
  intros V Dy (vp & Ep & Dp) (vn & En & Dn) Hd. destruct (inv_nlink hash s _ _ _ p x V (ex_intro _ vp Ep)) as (s4 & E4 & V4 & Ee & Nx & Ed & v' & Ev' & Ei). rewrite Ep in Ev'. injection Ev' as <-. exists s4. rewrite E4.
  pose proof (dy_nlink s s4 p vp _ Dy Ep Dp Ei Ed) as Dy4. assert (K4 : forall j, kind s4 j = kind s j) by (intros j; exact (kind_nlink s s4 p vp _ j Ep Ei)). destruct (Z.eqb_spec p np) as [Epn|Hne]; cbn [negb].
  - exists s4. split; [reflexivity|]. split; [reflexivity|]. split; [split; [|exact Dy4]|split; [exact Nx|split; [exact K4|intros d m; exact (N_same hash s s4 d m Ee)]]]. apply (InvD_ext hash _ _ _ _ _ _ _ V4); [|auto]. intros k v _. split; [|reflexivity]. specialize (Hd k). lia.
  - assert (En4 : inodes s4 np = Some vn) by (rewrite Ei; unfold upd; destruct (Z.eqb_spec np p); [congruence|exact En]). destruct (inv_nlink hash s4 _ _ _ np y V4 (ex_intro _ vn En4)) as (s5 & E5 & V5 & Ee5 & Nx5 & Ed5 & v' & Ev' & Ei5). rewrite En4 in Ev'. injection Ev' as <-. exists s5. split; [reflexivity|]. split; [exact E5|]. split; [split; [|exact (dy_nlink s4 s5 np vn _ Dy4 En4 Dn Ei5 Ed5)]|split; [congruence|split]].
    + apply (InvD_ext hash _ _ _ _ _ _ _ V5); [|auto]. intros k v _. split; [|reflexivity]. specialize (Hd k). lia.
    + intros j. rewrite (kind_nlink s4 s5 np vn _ j En4 Ei5). apply K4.
    + intros d m. apply N_same. congruence.
Qed.

Definition dest_ok (s : fs) (np : Z) (nn : name) (newino : option Z) (b : bool) : Prop :=
  match newino with Some v => N s np nn = Some (v, b) | None => N s np nn = None end.

Lemma rename_ok s p fd n np newino nn b : Inv s -> isdir s p -> isdir s np -> proper n = true -> proper nn = true -> N s p n = Some (fd, b) -> dest_ok s np nn newino b ->
  (exists s', rename hash dhash s p fd n np newino nn = Some (ROk fd, s') /\ Inv s' /\ Renames s p fd n b np nn s' /\ (forall v, newino = Some v -> b = true -> empty_dir s v)) \/
  (rename hash dhash s p fd n np newino nn = Some (RErr ENOTEMPTY, s) /\ (hash DOT <> hash DOTDOT -> exists v, newino = Some v /\ b = true /\ ~ empty_dir s v)).
Proof.
  intros I Dp Dnp Pn Pnn En Hd. destruct (I) as [V Dy]. unfold rename. rewrite (proper_not_dots n Pn). cbn zeta.
  set (check := match dir_get hash (ents s np) nn with Ok _ => _ | NotFound => _ | Panic => _ end).
  assert (Hc : check = Some true /\ (forall v, newino = Some v -> b = true -> empty_dir s v) \/ check = Some false /\ (hash DOT <> hash DOTDOT -> exists v, newino = Some v /\ b = true /\ ~ empty_dir s v)).
  { unfold check. unfold dest_ok, Names_Ops.N in Hd. pose proof (dir_get_spec hash (ents s np) nn (iv_wf _ _ _ _ _ V np)) as G. destruct (dir_get hash (ents s np) nn) as [[n' [di isd]]| |] eqn:Eg; [| |contradiction].
    - destruct newino as [w|]; [|discriminate]. injection Hd as -> ->. rewrite Z.eqb_refl. destruct b; [|left; split; [reflexivity|intros v _ X; discriminate]]. assert (E : N s np nn = Some (w, true)) by (unfold Names_Ops.N; now rewrite Eg).
      destruct (ok_to_rmdir_ok hash dhash s np nn w I Pnn E) as [[-> Em]|[-> Ne]]; [left; split; [reflexivity|intros v X _; injection X as <-; exact Em]|right; split; [reflexivity|]]. intros Hh. exists w. auto.
    - destruct newino as [w|]; [discriminate|]. left. split; [reflexivity|]. intros v X. discriminate. }
  clearbody check. destruct Hc as [[-> Hem]|[-> Hne]]; [left|right; auto].
  pose proof (iv_wf _ _ _ _ _ V p) as W. pose proof (proj1 (N_iff hash s p n _ W) En) as Ie. pose proof (dir_remove_spec hash (ents s p) n W) as H. destruct (dir_remove hash (ents s p) n) as [r l]. destruct H as [Wl H]. destruct r as [[n' e]| |]; [|destruct H as [H _]; exfalso; exact (H _ Ie)|contradiction].
  destruct H as (-> & Ip & P). pose proof (dents_unique hash _ _ _ _ W Ip Ie) as ->. rewrite Z.eqb_refl. cbn [negb].
  assert (Hb : forall v b', N s np nn = Some (v, b') -> b' = b). { intros v b' E. unfold dest_ok in Hd. destruct newino as [w|]; rewrite E in Hd; [now injection Hd as _ ->|discriminate]. }
  assert (Rp : forall v b', replaced s p n np nn = Some (v, b') -> b' = b /\ newino = Some v /\ N s np nn = Some (v, b) /\ hit p n np nn = false).
  { intros v b' E. unfold replaced in E. destruct (hit p n np nn); [discriminate|]. pose proof (Hb v b' E) as ->. unfold dest_ok in Hd. destruct newino as [w|]; rewrite E in Hd; [injection Hd as ->; auto|discriminate]. }
  destruct (rename_move s p fd n np nn b l I Dp Dnp Pn Pnn En Hb Wl P) as (s2 & s3 & -> & -> & V3 & I3 & Dy3 & Nx3 & HN3).
  assert (DyI3 : DyInv s3) by (apply (dy_same dhash s s3 Dy Dy3); rewrite I3; auto).
  assert (K3 : forall j, kind s3 j = kind s j) by (intros j; unfold kind; now rewrite I3).
  assert (D3p : isdir s3 p) by (apply kind_isdir; rewrite K3; now apply kind_isdir). assert (D3np : isdir s3 np) by (apply kind_isdir; rewrite K3; now apply kind_isdir).
  unfold Renames. destruct (replaced s p n np nn) as [[v b']|] eqn:Er.
  - destruct (Rp v b' eq_refl) as (-> & Ew & Ed & Hh). pose proof (proj1 (N_iff hash s np nn _ (iv_wf _ _ _ _ _ V np)) Ed) as Id. destruct (iv_tgt _ _ _ _ _ V _ _ _ _ Id Pnn) as (vv & Evv & Dvv).
    pose proof (isdir_rng _ _ _ _ _ _ V Dnp) as Rnp. pose proof (refs_pos s np nn v b ltac:(lia) Id Pnn) as Rv. destruct b.
    + (* a directory replaces an empty one *)
      assert (Em : empty_dir s v) by (apply Hem; auto). destruct (iv_dir _ _ _ _ _ V v vv Evv Dvv) as [Rv1 _]. destruct (Z.eqb_spec v 1) as [|Hv1]; [lia|].
      assert (Vp : v <> p) by (intros ->; exact (not_empty_has hash _ _ _ _ Pn En Em)). assert (Vnp : v <> np) by (intros ->; exact (not_empty_has hash _ _ _ _ Pnn Ed Em)).
      destruct (iv_dir _ _ _ _ _ V3 v vv ltac:(now rewrite I3) Dvv) as [R3v _]. cbn beta in R3v. rewrite Z.eqb_refl in R3v. destruct (Z.eqb_spec v 1); [lia|].
      unfold do_rmdir. assert (Hpr : forall x, In x (dents (ents s3 v)) -> proper (fst x) = false).
      { intros [m e] Ix. cbn [fst]. apply (N_iff hash) in Ix; [|exact (iv_wf _ _ _ _ _ V3 v)]. rewrite HN3 in Ix. destruct (hit_spec np nn v m) as [[X _]|]; [congruence|]. destruct (true && negb (p =? np) && hit fd DOTDOT v m) eqn:X; [|destruct (hit_spec p n v m) as [[Y _]|]; [congruence|exact (Em m e Ix)]].
        apply andb_true_iff in X. destruct X as [_ X]. destruct (hit_spec fd DOTDOT v m) as [[_ ->]|]; [reflexivity|discriminate]. }
      pose proof (inv_delete hash s3 _ _ _ v V3 Hv1 ltac:(lia) Hpr) as V4. assert (Dy4 : DyInv (delete_object s3 v)) by (unfold delete_object; apply dy_inode; [now apply dy_set_ents| |discriminate]; intros w Ew'; cbn [inodes set_ents] in Ew'; left; congruence).
      assert (Kd : forall j, j <> v -> isdir s3 j -> isdir (delete_object s3 v) j) by (intros j Hj D; apply kind_isdir; rewrite kind_delete; destruct (Z.eqb_spec j v); [contradiction|now apply kind_isdir]).
      assert (V4' : InvD (delete_object s3 v) (fun k => d1 (k =? p) 1) (fun _ => 0) (fun _ => False)).
      { apply (InvD_ext hash _ _ _ _ _ _ _ V4); [|auto]. intros k w Ewk. cbn beta. cbn [delete_object set_inode inodes] in Ewk. unfold upd in Ewk. destruct (k =? v); [discriminate|]. split; lia. }
      cbn [andb]. rewrite orb_true_r. cbn [negb]. destruct (rename_end (delete_object s3 v) _ p np (-1) 0 V4' Dy4 ltac:(auto) ltac:(auto) ltac:(intros k; cbn beta; destruct (k =? p), (k =? np), (p =? np); lia)) as (s4 & s5 & -> & -> & I5 & Nx5 & K5 & HN5).
      exists s5. split; [reflexivity|]. split; [exact I5|]. split; [|exact Hem]. split; [rewrite Nx5; exact Nx3|]. split.
      * intros j. rewrite K5, kind_delete, K3. cbn [orb]. rewrite andb_true_r. reflexivity.
      * intros d m. rewrite HN5, N_delete, HN3. cbn [andb]. reflexivity.
    + (* a file replaces a file *)
      assert (Kv : kind s3 v = Some false) by (rewrite K3; unfold kind; rewrite Evv; cbn; now rewrite Dvv).
      destruct (do_unlink_ok hash dhash s3 false v (fun _ => False) V3 DyI3 Kv ltac:(discriminate)) as (s4 & -> & V4 & Dy4 & Nx4 & Ee4 & K4).
      assert (Nvd : forall j, isdir s3 j -> isdir s4 j). { intros j D. apply kind_isdir. rewrite K4. apply kind_isdir in D. destruct (Z.eqb_spec j v) as [->|]; [congruence|exact D]. }
      assert (Rf : refs s3 v = refs s v - 1). { pose proof (iv_file _ _ _ _ _ V3 v vv ltac:(now rewrite I3) Dvv) as A. pose proof (iv_file _ _ _ _ _ V v vv Evv Dvv) as B. cbn beta iota in A, B. rewrite Z.eqb_refl in A. lia. }
      cbn [andb]. destruct (rename_end s4 _ p np 0 0 V4 Dy4 ltac:(auto) ltac:(auto) ltac:(intros k; cbn beta; destruct (k =? p), (k =? np), (p =? np); lia)) as (s5 & s6 & -> & -> & I6 & Nx6 & K6 & HN6).
      exists s6. split; [reflexivity|]. split; [exact I6|]. split; [|exact Hem]. split; [congruence|]. split.
      * intros j. rewrite K6, K4, K3, Rf. cbn [orb negb]. rewrite andb_true_r. replace (refs s v - 1 =? 0) with (refs s v =? 1) by lia. reflexivity.
      * intros d m. rewrite HN6. assert (E : N s4 d m = N s3 d m) by (unfold Names_Ops.N; now rewrite Ee4). rewrite E, HN3. reflexivity.
  - assert (V3' : InvD s3 (fun k => if b then d1 (k =? p) 1 - d1 (k =? np) 1 else 0) (fun _ => 0) (fun _ => False)) by (apply (InvD_ext hash _ _ _ _ _ _ _ V3); [|auto]; intros k w _; cbn beta; destruct b; split; lia).
    rewrite orb_false_r. cbn [negb]. rewrite andb_true_r.
    destruct (rename_end s3 _ p np (if b && negb (p =? np) then -1 else 0) (if b then 1 else 0) V3' DyI3 D3p D3np) as (s5 & s6 & -> & -> & I6 & Nx6 & K6 & HN6).
    { intros k. cbn beta. destruct b; cbn [andb]; destruct (Z.eqb_spec p np) as [E|E]; cbn [negb andb]; destruct (Z.eqb_spec k np), (Z.eqb_spec k p); lia. }
    exists s6. split; [reflexivity|]. split; [exact I6|]. split; [|exact Hem]. split; [congruence|]. split; [intros j; rewrite K6; apply K3|]. intros d m. rewrite HN6, HN3. reflexivity.
Qed.
Lemma rename_dots s p fd n np newino nn : proper n = false -> rename hash dhash s p fd n np newino nn = Some (RErr EINVAL, s).
Proof. intros H. unfold rename. unfold proper in H. apply negb_false_iff in H. now rewrite H. Qed.

(** ** files without names *)
Definition dead (s : fs) (i : Z) : bool := match inodes s i with Some v => negb (i_isdir v) && (i_nlink v =? 0) | None => false end.
Lemma dead_spec s i : dead s i = true <-> exists v, inodes s i = Some v /\ i_isdir v = false /\ i_nlink v = 0.
Proof.
  clear hash dhash. unfold dead. destruct (inodes s i) as [v|]; split.
  - intros H. apply andb_true_iff in H. destruct H as [A B]. apply negb_true_iff in A. exists v. repeat split; [exact A|lia].
  - intros (w & E & A & B). injection E as <-. rewrite A, B. reflexivity.
  - discriminate.
  - intros (w & E & _). discriminate.
Qed.
Lemma dead_facts s i : Inv s -> dead s i = true -> i <> 1 /\ refs s i = 0 /\ kind s i = Some false /\ ents s i = [] /\ dying s (dhash i) = Some i.
Proof.
  intros [V [A B]] D. apply dead_spec in D. destruct D as (v & Ev & Dv & Nv). assert (K : kind s i = Some false) by (unfold kind; rewrite Ev; cbn; now rewrite Dv). pose proof (iv_file _ _ _ _ _ V i v Ev Dv) as F. cbn beta in F.
  split; [exact (file_not_root hash _ _ _ _ _ V K)|]. split; [lia|]. split; [exact K|]. split; [exact (file_ents hash _ _ _ _ _ V K)|]. exact (B i v Ev Dv Nv).
Qed.
Lemma dying_dead s h i : DyInv s -> dying s h = Some i -> dead s i = true /\ dhash i = h.
Proof. clear hash. intros [A _] E. destruct (A h i E) as (H & v & Hv). split; [apply dead_spec; eauto|exact H]. Qed.

Lemma inactive_ok s i : Inv s -> (forall j, dead s j = true -> dhash j = dhash i -> j = i) ->
  exists s', inactive dhash s i = Some (ROk i, s') /\ Inv s' /\ nexto s' = nexto s /\ (forall j, kind s' j = if (j =? i) && dead s i then None else kind s j) /\ (forall d m, N s' d m = N s d m).
Proof.
  intros I NC. destruct (I) as [V Dy]. unfold inactive. destruct (dying s (dhash i)) as [j|] eqn:Ed.
  - destruct (dying_dead s _ j Dy Ed) as [Dj Hj]. pose proof (NC j Dj Hj) as ->. rewrite Z.eqb_refl. destruct (dead_facts s i I Dj) as (N1 & R0 & K & E0 & _). eexists. split; [reflexivity|]. split; [split|split; [reflexivity|split]].
    + apply (inv_delete hash (set_dying s (dhash i) None)); [now apply inv_set_dying|exact N1|exact R0|]. cbn [ents set_dying]. rewrite E0. contradiction.
    + destruct Dy as [A B]. split; cbn [dying set_dying delete_object set_inode set_ents inodes]; unfold upd.
      * intros h k. destruct (Z.eqb_spec h (dhash i)) as [->|Hh]; [discriminate|]. intros E. destruct (A h k E) as (Hk & v & Hv). split; [exact Hk|]. exists v. destruct (Z.eqb_spec k i) as [->|]; [congruence|exact Hv].
      * intros k v. destruct (Z.eqb_spec k i) as [->|Hk]; [discriminate|]. intros Ev Dv Nv. destruct (Z.eqb_spec (dhash k) (dhash i)) as [E|]; [|eauto]. exfalso. apply Hk. apply NC; [apply dead_spec; eauto|exact E].
    + intros j. rewrite kind_delete, Dj, andb_true_r. reflexivity.
    + intros d m. rewrite N_delete. destruct (Z.eqb_spec d i) as [->|]; [|reflexivity]. symmetry. apply N_none; [exact (iv_wf _ _ _ _ _ V i)|]. rewrite E0. auto.
  - exists s. split; [reflexivity|]. split; [exact I|]. split; [reflexivity|]. split; [|auto]. intros j. destruct (dead s i) eqn:Di; [|now rewrite andb_false_r]. destruct (dead_facts s i I Di) as (_ & _ & _ & _ & X). congruence.
Qed.

(** ** mount *)
Lemma dying_list_in s : Inv s -> forall i, In i (dying_list dhash s) <-> dead s i = true.
Proof.
  intros I i. unfold dying_list. rewrite filter_In, in_zrange. split.
  - intros [_ H]. destruct (dying s (dhash i)) as [j|] eqn:E; [|discriminate]. apply Z.eqb_eq in H. subst j. exact (proj1 (dying_dead s _ i (proj2 I) E)).
  - intros D. destruct (dead_facts s i I D) as (_ & _ & K & _ & ->). rewrite Z.eqb_refl. split; [|reflexivity]. destruct (kind_some _ _ _ K) as (v & Ev & _). pose proof (iv_rng _ _ _ _ _ (proj1 I) i v Ev). lia.
Qed.
Lemma reap_fold dl rh ex l : forall s, InvD s dl rh ex -> (forall i, In i l -> i <> 1 /\ refs s i = 0 /\ ents s i = []) ->
  let s' := fold_left delete_object l s in InvD s' dl rh ex /\ nexto s' = nexto s /\ (forall d, ents s' d = ents s d) /\ (forall j, inodes s' j = if existsb (Z.eqb j) l then None else inodes s j).
Proof.
  induction l as [|i l IH]; intros s V H; cbn [fold_left]; [split; [exact V|split; [reflexivity|split; reflexivity]]|].
  destruct (H i (or_introl eq_refl)) as (N1 & R0 & E0). pose proof (inv_delete hash s _ _ _ i V N1 R0 ltac:(rewrite E0; contradiction)) as V1.
  assert (Ee : forall d, ents (delete_object s i) d = ents s d) by (intros d; cbn [delete_object set_inode set_ents ents]; unfold upd; destruct (Z.eqb_spec d i) as [->|]; [now rewrite E0|reflexivity]).
  destruct (IH (delete_object s i) V1) as (V2 & Nx & Ee2 & Ei2).
  - intros j Ij. destruct (H j (or_intror Ij)) as (A & B & C). split; [exact A|]. split; [|now rewrite Ee]. rewrite <- B. unfold refs. apply zsum_ext. intros d _. now rewrite Ee.
  - split; [exact V2|]. split; [exact Nx|]. split; [intros d; now rewrite Ee2|]. intros j. rewrite Ei2. cbn [existsb delete_object set_inode inodes]. unfold upd. cbn [set_ents inodes]. destruct (j =? i); cbn [orb]; destruct (existsb (Z.eqb j) l); reflexivity.
Qed.
Lemma last_object_spec s : (exists v, inodes s 1 = Some v) -> 2 <= nexto s -> (forall i v, inodes s i = Some v -> 1 <= i < nexto s) ->
  1 <= last_object s < nexto s /\ exists_object s (last_object s) = true /\ forall i v, inodes s i = Some v -> i <= last_object s.
Proof.
  intros (r & Er) Nx Rg. unfold last_object. set (n := nexto s) in *. assert (G : forall l, (forall a b c, l = a ++ b :: c -> forall x, In x c -> x < b) -> (exists i, In i l /\ exists_object s i = true) ->
    exists i, find (exists_object s) l = Some i /\ In i l /\ exists_object s i = true /\ forall j, In j l -> exists_object s j = true -> j <= i).
  { induction l as [|x l IH]; intros O (i & Ii & Xi); [contradiction|]. cbn [find]. destruct (exists_object s x) eqn:Ex.
    - exists x. split; [reflexivity|]. split; [now left|]. split; [exact Ex|]. intros j [<-|Ij] _; [lia|]. pose proof (O [] x l eq_refl j Ij). lia.
    - destruct IH as (k & Fk & Ik & Xk & Mk); [intros a b c E y Iy; apply (O (x :: a) b c); [now rewrite E|exact Iy]|destruct Ii as [<-|Ii]; [congruence|eauto]|]. exists k. split; [exact Fk|]. split; [now right|]. split; [exact Xk|]. intros j [<-|Ij] Xj; [congruence|auto]. }
  destruct (G (rev (zrange 0 n))) as (i & F & Ii & Xi & Mi).
  - clear. intros a b c E x Ix. assert (E' : zrange 0 n = rev c ++ b :: rev a) by (rewrite <- (rev_involutive (zrange 0 n)), E, rev_app_distr; cbn [rev]; now rewrite <- app_assoc).
    assert (S : forall l lo, zrange lo n = l -> forall p q y, l = p ++ y :: q -> forall z, In z p -> z < y).
    { clear. intros l lo <- p q y E z Iz. pose proof (NoDup_zrange lo n) as _. destruct (Z_lt_le_dec lo n) as [Hl|Hl]; [|rewrite zrange_empty in E by lia; destruct p; discriminate].
      assert (Iy : lo <= y < n) by (apply in_zrange; rewrite E; apply in_or_app; right; now left).
      rewrite (zrange_split lo y n) in E by lia. rewrite (zrange_cons y n) in E by lia.
      assert (ND : NoDup (p ++ y :: q)). { rewrite <- E, <- zrange_cons, <- zrange_split by lia. apply NoDup_zrange. }
      assert (Pe : p = zrange lo y). { assert (NoDup (zrange lo y ++ y :: zrange (y + 1) n)) as ND2 by now rewrite E. clear -E ND ND2. revert E ND2. generalize (zrange lo y) as u, (zrange (y + 1) n) as w. revert ND. induction p as [|a p IH]; intros ND [|b u] w E ND2; cbn [app] in *.
        - reflexivity.
        - injection E as -> E. inversion ND2; subst. exfalso. apply H1. apply in_or_app. right. now left.
        - injection E as -> E. inversion ND; subst. exfalso. apply H1. apply in_or_app. right. now left.
        - injection E as -> E. inversion ND; inversion ND2; subst. f_equal. exact (IH H2 u w E H6). }
      subst p. apply in_zrange in Iz. lia. }
    apply (S _ 0 eq_refl (rev c) (rev a) b E'). now apply in_rev in Ix.
  - exists 1. split; [apply in_rev; rewrite rev_involutive; apply in_zrange; lia|]. unfold exists_object. now rewrite Er.
  - rewrite F. apply in_rev in Ii. apply in_zrange in Ii. assert (Hx : exists v, inodes s i = Some v) by (unfold exists_object in Xi; destruct (inodes s i); [eauto|discriminate]). destruct Hx as (v & Ev). split; [exact (Rg i v Ev)|]. split; [exact Xi|]. intros j w Ew. apply Mi; [apply in_rev; rewrite rev_involutive; apply in_zrange; pose proof (Rg j w Ew); lia|]. unfold exists_object. now rewrite Ew.
Qed.

Lemma inv_set_next s dl rh ex k : InvD s dl rh ex -> 2 <= k <= nexto s -> (forall i v, inodes s i = Some v -> i < k) -> InvD (set_next s k) dl rh ex.
Proof.
  intros V Hk Hi. assert (Rf : forall j, refs (set_next s k) j = refs s j).
  { intros j. unfold refs. cbn [nexto set_next ents]. symmetry. apply refs_range; [lia|]. intros d Hd. apply (iv_empty _ _ _ _ _ V). intros v Ev. apply Hi in Ev. lia. }
  destruct V. constructor; cbn [nexto set_next ents inodes]; try assumption.
  - lia.
  - intros i v Ev. pose proof (Hi i v Ev). pose proof (iv_rng i v Ev). lia.
  - intros i v. rewrite Rf. auto.
  - intros i v. rewrite Rf. exact (iv_dir i v).
Qed.

Lemma mount_ok s e : Inv s -> let s' := mount dhash s e in Inv s' /\ nexto s' <= nexto s /\ (forall d m, N s' d m = N s d m) /\ (forall j, kind s' j = if dead s j then None else kind s j) /\ (forall j, dead s' j = false).
Proof.
  intros I. destruct (I) as [V Dy]. cbv zeta. destruct (reap_fold _ _ _ (dying_list dhash s) s V) as (V1 & Nx1 & Ee1 & Ei1).
  { intros i Ii. apply dying_list_in in Ii; [|exact I]. destruct (dead_facts s i I Ii) as (A & B & _ & C & _). auto. }
  assert (Eb : forall j, existsb (Z.eqb j) (dying_list dhash s) = dead s j).
  { intros j. destruct (dead s j) eqn:D.
    - apply existsb_exists. exists j. split; [now apply dying_list_in|apply Z.eqb_refl].
    - apply not_true_iff_false. intros X. apply existsb_exists in X. destruct X as (k & Ik & Ek). apply Z.eqb_eq in Ek. subst k. apply dying_list_in in Ik; [congruence|exact I]. }
  set (s1 := reap dhash s). assert (Es1 : ents s1 = ents (fold_left delete_object (dying_list dhash s) s)) by reflexivity. assert (Is1 : forall j, inodes s1 j = if dead s j then None else inodes s j) by (intros j; rewrite <- Eb; exact (Ei1 j)).
  assert (V2 : InvD s1 (fun _ => 0) (fun _ => 0) (fun _ => False)). { apply (inv_state_ext hash (fold_left delete_object (dying_list dhash s) s)); try reflexivity; auto. exact (iv_wf _ _ _ _ _ V1). }
  assert (Nx : nexto s1 = nexto s) by exact Nx1.
  assert (Root : forall t, InvD t (fun _ => 0) (fun _ => 0) (fun _ => False) -> exists v, inodes t 1 = Some v) by (intros t Vt; destruct (iv_root _ _ _ _ _ Vt) as (v & Ev & _); eauto).
  destruct (last_object_spec s (Root s V) (iv_next _ _ _ _ _ V) (iv_rng _ _ _ _ _ V)) as (L1 & L2 & L3). destruct (last_object_spec s1 (Root s1 V2) (iv_next _ _ _ _ _ V2) (iv_rng _ _ _ _ _ V2)) as (M1 & M2 & M3).
  unfold mount. fold s1. assert (Hk : 2 <= last_object (if e then s else s1) + 1 <= nexto s) by (destruct e; lia).
  assert (Nodead : forall i v, inodes s1 i = Some v -> i_isdir v = false -> i_nlink v = 0 -> False). { intros i v Ev Dv Nv. rewrite Is1 in Ev. destruct (dead s i) eqn:D; [discriminate|]. assert (X : dead s i = true) by (apply dead_spec; eauto). congruence. }
  split; [split|split; [|split; [|split]]].
  - apply inv_set_next; [exact V2|lia|]. intros i v Ev. pose proof (M3 i v Ev). destruct e; [|lia]. rewrite Is1 in Ev. destruct (dead s i); [discriminate|]. pose proof (L3 i v Ev). lia.
  - split; cbn [dying set_next inodes].
    + intros h i E. cbn in E. discriminate.
    + intros i v Ev Dv Nv. exfalso. exact (Nodead i v Ev Dv Nv).
  - cbn [nexto set_next]. lia.
  - intros d m. unfold Names_Ops.N. cbn [ents set_next]. rewrite Es1, Ee1. reflexivity.
  - intros j. unfold kind. cbn [inodes set_next]. rewrite Is1. destruct (dead s j); reflexivity.
  - intros j. apply not_true_iff_false. intros X. apply dead_spec in X. destruct X as (v & Ev & Dv & Nv). exact (Nodead j v Ev Dv Nv).
Qed.
End Ops.
