(** * Insertion and removal bring no node to another level or key without writing it *)
From Verif Require Import Common ZMap FSM_Model Tree_Model TreeRD_Model Tree_Inv Tree_Proofs Tree_Remove Tree_Range Tree_Flush TreeCZ_Model TreeCZ_Proofs.

Section Rec.
Context {V : Type}.
Notation elem := (@elem V).
Notation node := (@node V).
Notation tree := (@tree V).

Definition rsub (h : nat) (n' n : node) : Prop := forall lv k a, rec_in h n' lv k a -> rec_in h n lv k a.
Definition esub (h : nat) (cs : list elem) (e' : elem) : Prop := forall lv k a, erec h e' lv k a -> rec_in (S h) (Int cs) lv k a.

Lemma rsub_list h cs' cs : Forall (esub h cs) cs' -> rsub (S h) (Int cs') (Int cs).
Proof. intros F lv k a (e & I & R). rewrite Forall_forall in F. exact (F e I lv k a R). Qed.
Lemma esub_in h cs e : In e cs -> esub h cs e.
Proof. intros I lv k a R. exists e. auto. Qed.
Lemma esub_incl h cs l : (forall e, In e l -> In e cs) -> Forall (esub h cs) l.
Proof. intros H. apply Forall_forall. intros e I. apply esub_in. auto. Qed.
Lemma esub_mem h cs e' e : In e cs -> e_ptr e' = None -> rsub h (e_node e') (e_node e) -> esub h cs e'.
Proof. intros I P S lv k a [(_ & _ & X)|R]; [congruence|]. exists e. split; [exact I|]. right. now apply S. Qed.
Lemma esub_mem2 h cs e' e1 e2 : In e1 cs -> In e2 cs -> e_ptr e' = None ->
  (forall lv k a, rec_in h (e_node e') lv k a -> rec_in h (e_node e1) lv k a \/ rec_in h (e_node e2) lv k a) -> esub h cs e'.
Proof. intros I1 I2 P S lv k a [(_ & _ & X)|R]; [congruence|]. destruct (S lv k a R); [exists e1|exists e2]; auto. Qed.
Lemma rsub_refl h n : rsub h n n.
Proof. intros lv k a H. exact H. Qed.
Lemma rsub_trans h a b c : rsub h a b -> rsub h b c -> rsub h a c.
Proof. unfold rsub. eauto. Qed.
Lemma rsub_Int h (cs' cs : list elem) : (forall e, In e cs' -> In e cs) -> rsub h (Int cs') (Int cs).
Proof. intros H lv k a. destruct h as [|h]; [contradiction|]. cbn [rec_in]. intros (e & I & R). exists e. auto. Qed.
Lemma rec_leaf h l lv k a : ~ @rec_in V h (Leaf l) lv k a.
Proof. destruct h; intros []. Qed.
Lemma in_firstn {A} n (l : list A) x : In x (firstn n l) -> In x l.
Proof. intros H. rewrite <- (firstn_skipn n l). apply in_or_app. now left. Qed.
Lemma in_skipn {A} n (l : list A) x : In x (skipn n l) -> In x l.
Proof. intros H. rewrite <- (firstn_skipn n l). apply in_or_app. now right. Qed.

Ltac esk := apply esub_incl; first [apply in_skipn | exact (fun x => in_skipn (S _) _ x) | exact (fun x => in_skipn (S (S _)) _ x)].

Lemma xlock_rec txg (e e' : elem) p : xlock txg e = Some (e', p) -> e_ptr e' = None /\ e_node e' = e_node e.
Proof. destruct e as [k s te [a|] m n]; cbn [xlock]; [destruct (start_txg n txg); [|discriminate]|]; intros H; injection H as <- <-; auto. Qed.

Lemma split_rec lim seq txg h (n l : node) (os ot : Z) (new : elem) : split lim seq txg n = Some (l, (os, ot), new) ->
  rsub h l n /\ e_ptr new = None /\ rsub h (e_node new) n.
Proof.
  unfold split. destruct (seq && _); [discriminate|]. destruct n as [its|cs].
  - destruct (skipn _ its) as [|[k v] r]; [discriminate|]. intros H. injection H as <- <- <- <-. cbn. split; [|split; [reflexivity|]]; intros ? ? ? X; destruct (rec_leaf _ _ _ _ _ X).
  - destruct (min_ts (firstn _ cs)); [|discriminate]. destruct (skipn _ cs) as [|e r] eqn:E; [discriminate|]. destruct (min_ts (e :: r)); [|discriminate].
    intros H. injection H as <- <- <- <-. cbn [e_ptr e_node]. split; [apply rsub_Int; apply in_firstn|]. split; [reflexivity|].
    apply rsub_Int. intros x I. rewrite <- E in I. eapply in_skipn; eauto.
Qed.

Lemma ins_try_rec lim seq txg k v h rec (Hrec : forall cs cs' old p, rec cs = Some (cs', old, p) -> rsub h (Int cs') (Int cs)) :
  forall retry cs cs' old p, ins_try lim seq txg k v rec retry cs = Some (cs', old, p) -> rsub (S h) (Int cs') (Int cs).
Proof.
  induction retry as [|retry IH]; intros cs cs' old p E; cbn [ins_try] in E; destruct (nth_error cs (position cs k)) as [[k0 s0 t0 p0 m0 n0]|] eqn:En; try discriminate;
    apply nth_error_In in En;
    (destruct (xlock txg _) as [[[k2 s2 t2 p2 m2 n2] pop]|] eqn:Ex; [|discriminate]);
    (apply xlock_rec in Ex; cbn [e_ptr e_node] in Ex; destruct Ex as [-> Hn2]);
    (assert (n2 = n0) by (destruct (k <? k0); exact Hn2)); clear Hn2; subst n2.
  - destruct (should_split lim k n0); [discriminate|]. destruct n0 as [l|cs2].
    + injection E as <- <- <-. apply rsub_list, Forall_mid. split; [apply esub_incl, in_firstn|]. split; [|esk].
      eapply esub_mem; [exact En|reflexivity|]. intros ? ? ? X. destruct (rec_leaf _ _ _ _ _ X).
    + destruct (rec cs2) as [[[cs2' o2] p']|] eqn:Er; [|discriminate]. injection E as <- <- <-. apply rsub_list, Forall_mid. split; [apply esub_incl, in_firstn|].
      split; [|esk]. eapply esub_mem; [exact En|reflexivity|]. eapply Hrec; eauto.
  - destruct (should_split lim k n0).
    + destruct (split lim seq txg n0) as [[[l [os ot]] new]|] eqn:Es; [|discriminate].
      destruct (ins_try lim seq txg k v rec retry _) as [[[cs2 o2] p']|] eqn:Er; [|discriminate]. injection E as <- <- <-.
      eapply rsub_trans; [eapply IH; exact Er|]. destruct (split_rec lim seq txg h _ _ _ _ _ Es) as (S1 & S2 & S3).
      apply rsub_list, Forall_mid. split; [apply esub_incl, in_firstn|]. split; [eapply esub_mem; [exact En|reflexivity|exact S1]|].
      constructor; [eapply esub_mem; [exact En|exact S2|exact S3]|esk].
    + destruct n0 as [l|cs2].
      * injection E as <- <- <-. apply rsub_list, Forall_mid. split; [apply esub_incl, in_firstn|]. split; [|esk].
        eapply esub_mem; [exact En|reflexivity|]. intros ? ? ? X. destruct (rec_leaf _ _ _ _ _ X).
      * destruct (rec cs2) as [[[cs2' o2] p']|] eqn:Er; [|discriminate]. injection E as <- <- <-. apply rsub_list, Forall_mid. split; [apply esub_incl, in_firstn|].
        split; [|esk]. eapply esub_mem; [exact En|reflexivity|]. eapply Hrec; eauto.
Qed.
Lemma insert_int_rec lim seq txg k v h : forall cs cs' old p, insert_int lim seq txg k v h cs = Some (cs', old, p) -> rsub h (Int cs') (Int cs).
Proof.
  induction h as [|h IH]; intros cs cs' old p E; [discriminate|]. cbn [insert_int] in E. eapply ins_try_rec; [exact IH|exact E].
Qed.

Definition tsub (t' t : tree) : Prop := forall lv k a, trec t' lv k a -> trec t lv k a.
Lemma insert_rec lim seq txg k v (t t' : tree) old p : insert lim seq txg k v t = Some (t', old, p) -> tsub t' t /\ (t_h t <= t_h t')%nat.
Proof.
  unfold insert. destruct t as [[rk rs rt rp rm rn] h]. cbn [t_root xlock_root t_h]. destruct (should_split lim k rn).
  - destruct (split lim seq txg rn) as [[[l [os ot]] new]|] eqn:Es; [|discriminate].
    destruct (insert_int lim seq txg k v (S h) _) as [[[cs' o] p']|] eqn:Ei; [|discriminate]. intros H. injection H as <- <- <-. split; [|cbn; lia].
    intros lv j a [(_ & _ & X)|R]; [discriminate X|]. cbn [t_h t_root e_node] in *. right. cbn [e_node]. apply (insert_int_rec _ _ _ _ _ _ _ _ _ _ Ei) in R.
    destruct (split_rec lim seq txg h _ _ _ _ _ Es) as (S1 & S2 & S3). destruct R as (e & [<-|[<-|[]]] & R); cbn [e_ptr e_node] in R.
    + destruct R as [(_ & _ & X)|R]; [discriminate X|]. now apply S1.
    + destruct R as [(_ & _ & X)|R]; [congruence|]. now apply S3.
  - destruct rn as [l|cs].
    + intros H. injection H as <- <- <-. split; [|cbn; lia]. intros lv j a [(_ & _ & X)|R]; [discriminate X|]. destruct (rec_leaf _ _ _ _ _ R).
    + destruct (insert_int lim seq txg k v h cs) as [[[cs' o] p']|] eqn:Ei; [|discriminate]. intros H. injection H as <- <- <-. split; [|cbn; lia].
      intros lv j a [(_ & _ & X)|R]; [discriminate X|]. right. cbn [t_h t_root e_node] in *. eapply insert_int_rec; eauto.
Qed.

Lemma merge_rec h (a b n : node) : n_merge a b = Some n -> forall lv k x, rec_in h n lv k x -> rec_in h a lv k x \/ rec_in h b lv k x.
Proof.
  destruct a as [la|ca], b as [lb|cb]; try discriminate; intros [= <-] lv k x R; [destruct (rec_leaf _ _ _ _ _ R)|].
  destruct h as [|h]; [destruct R|]. destruct R as (e & I & R). apply in_app_or in I. destruct I; [left|right]; exists e; auto.
Qed.
Lemma take_low_rec h (a b a' b' : node) : take_low a b = Some (a', b') -> rsub h b' b /\ forall lv k x, rec_in h a' lv k x -> rec_in h a lv k x \/ rec_in h b lv k x.
Proof.
  unfold take_low. destruct (_ <? _)%nat; [discriminate|]. destruct a as [la|ca], b as [lb|cb]; try discriminate.
  - destruct (skipn _ lb); [discriminate|]. intros [= <- <-]. split; [intros ? ? ? R|intros ? ? ? R]; destruct (rec_leaf _ _ _ _ _ R).
  - destruct (_ <? _)%nat; [discriminate|]. intros [= <- <-]. split; [apply rsub_Int; apply in_skipn|]. intros lv k x R. destruct h as [|h]; [destruct R|].
    destruct R as (e & I & R). apply in_app_or in I. destruct I as [I|I]; [left|right; apply in_firstn in I]; exists e; auto.
Qed.
Lemma take_high_rec h (a b a' b' : node) : take_high a b = Some (a', b') -> rsub h b' b /\ forall lv k x, rec_in h a' lv k x -> rec_in h a lv k x \/ rec_in h b lv k x.
Proof.
  unfold take_high. destruct (_ <? _)%nat; [discriminate|]. destruct (_ <? _)%nat; [discriminate|]. destruct a as [la|ca], b as [lb|cb]; try discriminate.
  - destruct (skipn _ lb); [discriminate|]. intros [= <- <-]. split; [intros ? ? ? R|intros ? ? ? R]; destruct (rec_leaf _ _ _ _ _ R).
  - intros [= <- <-]. split; [apply rsub_Int; apply in_firstn|]. intros lv k x R. destruct h as [|h]; [destruct R|].
    destruct R as (e & I & R). apply in_app_or in I. destruct I as [I|I]; [right; apply in_skipn in I|left]; exists e; auto.
Qed.

Lemma set_acc (e : elem) n s : e_ptr (set_ts (set_node e n) s) = e_ptr e /\ e_node (set_ts (set_node e n) s) = n.
Proof. destruct e; auto. Qed.
Lemma set_acc2 (e : elem) n s k : e_ptr (set_key (set_ts (set_node e n) s) k) = e_ptr e /\ e_node (set_key (set_ts (set_node e n) s) k) = n.
Proof. destruct e; auto. Qed.

Lemma fix_int_rec lim txg h cs i cs' d1 d2 p : (forall c, nth_error cs i = Some c -> e_ptr c = None) -> fix_int lim txg cs i = Some (cs', d1, d2, p) -> rsub (S h) (Int cs') (Int cs).
Proof.
  intros Hc. unfold fix_int. destruct (nth_error cs i) as [c|] eqn:Ec; [|discriminate]. specialize (Hc c eq_refl). apply nth_error_In in Ec.
  destruct (S i <? length cs)%nat.
  - destruct (nth_error cs (S i)) as [s0|] eqn:Es; [|discriminate]. apply nth_error_In in Es. destruct (xlock txg s0) as [[s pop]|] eqn:Ex; [|discriminate].
    apply xlock_rec in Ex. destruct Ex as [Sp Sn]. destruct (can_merge lim (e_node c) (e_node s)).
    + destruct (n_merge (e_node c) (e_node s)) as [n|] eqn:Em; [|discriminate]. destruct (start_txg n txg) as [st|]; [|discriminate]. intros [= <- <- <- <-].
      apply rsub_list, Forall_mid. split; [apply esub_incl, in_firstn|]. split; [|esk].
      destruct (set_acc c n st) as [A B]. eapply (esub_mem2 h cs _ c s0 Ec Es); [congruence|]. rewrite B. rewrite Sn in Em. eapply merge_rec; eauto.
    + destruct (take_low (e_node c) (e_node s)) as [[cn sn]|] eqn:Et; [|discriminate]. destruct (n_key sn) as [sk|]; [|discriminate].
      destruct (start_txg sn txg) as [sst|]; [|discriminate]. destruct (start_txg cn txg) as [cst|]; [|discriminate]. intros [= <- <- <- <-].
      rewrite Sn in Et. destruct (take_low_rec h _ _ _ _ Et) as [T1 T2].
      apply rsub_list, Forall_mid. split; [apply esub_incl, in_firstn|]. split; [|constructor; [|esk]].
      * destruct (set_acc c cn cst) as [A B]. eapply (esub_mem2 h cs _ c s0 Ec Es); [congruence|]. rewrite B. exact T2.
      * destruct (set_acc2 s sn sst sk) as [A B]. eapply (esub_mem h cs _ s0 Es); [congruence|]. rewrite B. exact T1.
  - destruct i as [|j]; [discriminate|].
    destruct (nth_error cs j) as [s0|] eqn:Es; [|discriminate]. apply nth_error_In in Es. destruct (xlock txg s0) as [[s pop]|] eqn:Ex; [|discriminate].
    apply xlock_rec in Ex. destruct Ex as [Sp Sn]. destruct (can_merge lim (e_node s) (e_node c)).
    + destruct (n_merge (e_node s) (e_node c)) as [n|] eqn:Em; [|discriminate]. destruct (start_txg n txg) as [st|]; [|discriminate]. intros [= <- <- <- <-].
      apply rsub_list, Forall_mid. split; [apply esub_incl, in_firstn|]. split; [|apply esub_incl; intros x I; now apply (in_skipn (S (S j)))].
      destruct (set_acc s n st) as [A B]. eapply (esub_mem2 h cs _ s0 c Es Ec); [congruence|]. rewrite B. rewrite Sn in Em. eapply merge_rec; eauto.
    + destruct (take_high (e_node c) (e_node s)) as [[cn sn]|] eqn:Et; [|discriminate]. destruct (n_key cn) as [ck|]; [|discriminate].
      destruct (start_txg sn txg) as [sst|]; [|discriminate]. destruct (start_txg cn txg) as [cst|]; [|discriminate]. intros [= <- <- <- <-].
      rewrite Sn in Et. destruct (take_high_rec h _ _ _ _ Et) as [T1 T2].
      apply rsub_list, Forall_mid. split; [apply esub_incl, in_firstn|]. split; [|constructor; [|apply esub_incl; intros x I; now apply (in_skipn (S (S j)))]].
      * destruct (set_acc s sn sst) as [A B]. eapply (esub_mem h cs _ s0 Es); [congruence|]. rewrite B. exact T1.
      * destruct (set_acc2 c cn cst ck) as [A B]. eapply (esub_mem2 h cs _ c s0 Ec Es); [congruence|]. rewrite B. exact T2.
Qed.

Lemma xlock_at_rec txg h cs i cs' c p : xlock_at txg cs i = Some (cs', c, p) ->
  rsub (S h) (Int cs') (Int cs) /\ e_ptr c = None /\ In c cs' /\ (forall c', nth_error cs' i = Some c' -> e_ptr c' = None).
Proof.
  unfold xlock_at. destruct (nth_error cs i) as [e|] eqn:En; [|discriminate]. destruct (xlock txg e) as [[e' pop]|] eqn:Ex; [|discriminate]. intros [= <- <- <-].
  pose proof (nth_error_In _ _ En) as Ie. apply xlock_rec in Ex. destruct Ex as [P N]. split; [|split; [exact P|]].
  - unfold put_child. apply rsub_list, Forall_mid. split; [apply esub_incl, in_firstn|]. split; [|esk].
    eapply esub_mem; [exact Ie|exact P|]. rewrite N. apply rsub_refl.
  - apply nth_error_split in En. destruct En as (l1 & l2 & -> & <-). rewrite put_child_mid. split; [apply in_or_app; right; now left|].
    intros c' H. rewrite nth_error_mid in H. injection H as <-. exact P.
Qed.
Lemma put_rec h cs i (c : elem) n' : In c cs -> e_ptr c = None -> rsub h n' (e_node c) -> rsub (S h) (Int (put_child cs i (set_node c n'))) (Int cs).
Proof.
  intros I P S. unfold put_child. apply rsub_list, Forall_mid. split; [apply esub_incl, in_firstn|]. split; [|esk].
  eapply esub_mem; [exact I| |]; destruct c; [exact P|exact S].
Qed.
Lemma remove_no_fix_rec lim txg k h : forall n n' old p, remove_no_fix lim txg k h n = Some (n', old, p) -> rsub h n' n.
Proof.
  induction h as [|h IH]; intros n n' old p E; cbn [remove_no_fix] in E; destruct n as [l|cs]; try discriminate.
  - injection E as <- <- <-. intros ? ? ? R. destruct (rec_leaf _ _ _ _ _ R).
  - injection E as <- <- <-. intros ? ? ? R. destruct (rec_leaf _ _ _ _ _ R).
  - destruct (xlock_at txg cs (position cs k)) as [[[cs1 c] p1]|] eqn:Ex; [|discriminate]. destruct (xlock_at_rec txg h _ _ _ _ _ Ex) as (X1 & X2 & X3 & X4).
    destruct (in_danger lim (e_node c)).
    + destruct (fix_int lim txg cs1 (position cs k)) as [[[[cs2 d1] d2] p2]|] eqn:Ef; [|discriminate]. pose proof (fix_int_rec lim txg h _ _ _ _ _ _ X4 Ef) as F.
      destruct (xlock_at txg cs2 (position cs2 k)) as [[[cs3 c3] p3]|] eqn:Ex3; [|discriminate]. destruct (xlock_at_rec txg h _ _ _ _ _ Ex3) as (Y1 & Y2 & Y3 & _).
      destruct (remove_no_fix lim txg k h (e_node c3)) as [[[n2 o2] p4]|] eqn:Er; [|discriminate]. injection E as <- <- <-.
      eapply rsub_trans; [apply put_rec; [exact Y3|exact Y2|eapply IH; exact Er]|]. eapply rsub_trans; [exact Y1|]. eapply rsub_trans; [exact F|exact X1].
    + destruct (remove_no_fix lim txg k h (e_node c)) as [[[n2 o2] p4]|] eqn:Er; [|discriminate]. injection E as <- <- <-.
      eapply rsub_trans; [apply put_rec; [exact X3|exact X2|eapply IH; exact Er]|exact X1].
Qed.
Lemma merge_root_rec txg (t t' : tree) p : xlock_and_merge_root txg t = Some (t', p) -> tsub t' t /\ e_ptr (t_root t') = None.
Proof.
  unfold xlock_and_merge_root. destruct t as [[rk rs rt rp rm rn] h]. cbn [t_root xlock_root e_node t_h]. destruct rn as [l|[|c [|c2 cs]]].
  - intros [= <- <-]. split; [|reflexivity]. intros lv k a [(_ & _ & X)|R]; [discriminate X|]. destruct (rec_leaf _ _ _ _ _ R).
  - cbn. intros [= <- <-]. split; [|reflexivity]. intros lv k a [(_ & _ & X)|R]; [discriminate X|destruct R].
  - destruct c as [ck cs ct cp cm cn]. cbn [set_key xlock_root]. destruct h as [|h]; [discriminate|]. intros [= <- <-]. split; [|reflexivity].
    intros lv k a [(_ & _ & X)|R]; [discriminate X|]. cbn [t_h t_root e_node] in R. right. cbn [t_h t_root e_node]. eexists. split; [now left|]. right. exact R.
  - intros [= <- <-]. split; [|reflexivity]. intros lv k a [(_ & _ & X)|R]; [discriminate X|]. right. exact R.
Qed.
Lemma remove_rec lim txg k (t t' : tree) old p : remove lim txg k t = Some (t', old, p) -> tsub t' t.
Proof.
  unfold remove. destruct (xlock_and_merge_root txg t) as [[t1 p1]|] eqn:Em; [|discriminate]. apply merge_root_rec in Em. destruct Em as [M P].
  destruct (remove_no_fix lim txg k (t_h t1) (e_node (t_root t1))) as [[[n' o] p']|] eqn:Er; [|discriminate]. intros [= <- <- <-].
  intros lv j a R. apply M. destruct t1 as [[rk rs rt rp rm rn] h]. cbn [t_root t_h set_node e_node e_ptr] in *. subst rp.
  destruct R as [(_ & _ & X)|R]; [discriminate X|]. right. cbn [t_h t_root e_node] in *. eapply remove_no_fix_rec; eauto.
Qed.
End Rec.
