(** C103: flushing a tree when writes fail. *)
From Verif Require Import Common ZMap Tree_Model TreeRD_Model Tree_Inv Tree_Proofs Tree_Remove Tree_Range Tree_Flush Tree_Props TreeFail_Model.

(** * Specification *)

Section Spec.
Context {V : Type}.
(** what becomes of a tree while it is flushed, any number of times, in any transactions, whatever writes fail *)
Inductive later : tree V * Z -> tree V * Z -> Prop :=
| later_now x : later x x
| later_iter t nx y txg w lowest t1 nx1 r : flush_iter_f txg w lowest nx t = (t1, nx1, r) -> later (t1, nx1) y -> later (t, nx) y.
(** the addresses in use are natural numbers *)
Definition natural (s : st V) : Prop := 0 <= s_nx s /\ forall e a, holds (s_tree s) e -> e_ptr e = Some a -> 0 <= a_id a.
End Spec.

(** * Proofs *)

Section Proofs.
Context {V : Type}.
Implicit Types (e : elem V) (cs : list (elem V)) (n : node V) (t : tree V).

(** ** The structure stays, and what is on disk stays *)

Fixpoint kept (h : nat) n n' : Prop :=
  match h, n, n' with
  | S h', Int cs, Int cs' => Forall2 (fun e e' => e_key e' = e_key e /\ kept h' (e_node e) (e_node e') /\ (e_ptr e <> None -> e' = e)) cs cs'
  | _, _, _ => n' = n
  end.
Definition kept_e h e e' : Prop := e_key e' = e_key e /\ kept h (e_node e) (e_node e') /\ (e_ptr e <> None -> e' = e).
Lemma kept_S h cs cs' : kept (S h) (Int cs) (Int cs') <-> Forall2 (kept_e h) cs cs'.
Proof. reflexivity. Qed.
Lemma F2_refl {A} (R : A -> A -> Prop) (l : list A) : (forall x, R x x) -> Forall2 R l l.
Proof. intros H. induction l; constructor; auto. Qed.
Lemma kept_refl h : forall n, kept h n n.
Proof. induction h as [|h IH]; intros [l|cs]; try reflexivity. apply kept_S. apply F2_refl. intros e. split; [reflexivity|]. split; [apply IH|reflexivity]. Qed.
Lemma kept_e_refl h e : kept_e h e e.
Proof. split; [reflexivity|]. split; [apply kept_refl|reflexivity]. Qed.
Lemma kept_shape h n n' : kept h n n' -> match n, n' with Leaf _, Leaf _ | Int _, Int _ => True | _, _ => False end.
Proof. destruct h, n, n'; cbn; intros H; try discriminate H; exact I. Qed.
Lemma kept_trans h : forall a b c, kept h a b -> kept h b c -> kept h a c.
Proof.
  induction h as [|h IH]; intros a b c A B; [cbn in *; congruence|].
  destruct a as [l|ca], b as [l'|cb]; try (apply kept_shape in A; destruct A; fail); [cbn in A; injection A as ->; exact B|].
  destruct c as [l''|cc]; [apply kept_shape in B; destruct B|]. apply (proj1 (kept_S _ _ _)) in A, B. apply kept_S. revert cc B. induction A as [|x y ca cb (K & N & P) A IHA]; intros cc B; inversion B as [|y' z cb' cc' (K' & N' & P') B']; subst; constructor; [|now apply IHA].
  split; [congruence|]. split; [eapply IH; eauto|]. intros Hx. specialize (P Hx). subst y. now apply P'.
Qed.
Definition kept_t t t' : Prop := t_h t' = t_h t /\ kept (t_h t) (e_node (t_root t)) (e_node (t_root t')) /\ (e_ptr (t_root t) <> None -> t' = t).
Lemma kept_t_refl t : kept_t t t.
Proof. split; [reflexivity|]. split; [apply kept_refl|reflexivity]. Qed.
Lemma kept_t_trans a b c : kept_t a b -> kept_t b c -> kept_t a c.
Proof.
  intros (A1 & A2 & A3) (B1 & B2 & B3). rewrite A1 in *. split; [congruence|]. split; [eapply kept_trans; eauto|].
  intros H. specialize (A3 H). subst b. now apply B3.
Qed.

Lemma F2_put (R : elem V -> elem V -> Prop) cs i e e' : (forall x, R x x) -> nth_error cs i = Some e -> R e e' -> Forall2 R cs (put_child cs i e').
Proof.
  intros Rf. revert i. induction cs as [|c cs IH]; intros [|i] H He; try discriminate H; unfold put_child.
  - injection H as ->. cbn. constructor; [exact He|now apply F2_refl].
  - cbn [firstn app]. constructor; [apply Rf|]. now apply IH.
Qed.

Lemma dirty_ptr e : is_dirty e = true -> e_ptr e = None.
Proof. unfold is_dirty. destruct (e_ptr e); [discriminate|reflexivity]. Qed.
Lemma kept_lose h e : is_dirty e = true -> kept_e h e (lose e).
Proof. intros D. apply dirty_ptr in D. destruct e. cbn in *. subst. split; [reflexivity|]. split; [apply kept_refl|]. intros X. now destruct X. Qed.
Lemma kept_written h s txg nx e : is_dirty e = true -> kept_e h e (written s txg nx e).
Proof. intros D. apply dirty_ptr in D. destruct e. cbn in *. subst. split; [reflexivity|]. split; [apply kept_refl|]. intros X. now destruct X. Qed.

Lemma leaves_fates_kept h txg w cs : forall nx, Forall2 (kept_e h) cs (fst (leaves_fates txg w nx cs)).
Proof.
  induction cs as [|e r IH]; intros nx; [constructor|]. cbn [leaves_fates]. destruct (is_dirty e) eqn:D.
  - destruct (w (e_key e)).
    + specialize (IH (nx + 1)). destruct (leaves_fates txg w (nx + 1) r). constructor; [now apply kept_written|exact IH].
    + specialize (IH nx). destruct (leaves_fates txg w nx r). constructor; [now apply kept_lose|exact IH].
    + specialize (IH nx). destruct (leaves_fates txg w nx r). constructor; [apply kept_e_refl|exact IH].
  - specialize (IH nx). destruct (leaves_fates txg w nx r). constructor; [apply kept_e_refl|exact IH].
Qed.
Lemma flush_leaves_kept h txg cs : forall nx, Forall2 (kept_e h) cs (fst (flush_leaves txg nx cs)).
Proof.
  induction cs as [|[k s t p m n] r IH]; intros nx; [constructor|]. cbn [flush_leaves]. destruct p.
  - specialize (IH nx). destruct (flush_leaves txg nx r). constructor; [apply kept_e_refl|exact IH].
  - specialize (IH (nx + 1)). destruct (flush_leaves txg (nx + 1) r). constructor; [|exact IH]. apply (kept_written h txg txg nx (Elem k s t None m n)). reflexivity.
Qed.

Lemma flush_r_f_S txg w h lowest nx cs : flush_r_f txg w (S (S h)) lowest nx cs =
  let idx := skip_clean (skipn (position cs lowest) cs) (position cs lowest) in
  match nth_error cs idx with
  | None => (cs, nx, Next None)
  | Some e =>
      match e with
      | Elem _ _ _ _ _ (Leaf _) => (cs, nx, RPanicked)
      | Elem k s t p m (Int cs1) =>
          if existsb is_dirty cs1 then
            let '(cs1', nx', r) := flush_r_f txg w (S h) lowest nx cs1 in
            (put_child cs idx (Elem k s t p m (Int cs1')), nx', match r with Next None => Next (option_map e_key (nth_error cs (S idx))) | _ => r end)
          else
            match min_ts cs1 with
            | None => (cs, nx, RPanicked)
            | Some st =>
                if existsb gone cs1 then (put_child cs idx (lose e), nx, RPanicked)
                else if is_lost (w k) then (put_child cs idx (lose e), nx, RFailed)
                else (put_child cs idx (written st txg nx e), nx + 1, Next (option_map e_key (nth_error cs (S idx))))
            end
      end
  end.
Proof. reflexivity. Qed.

Lemma skip_dirty cs lowest e : nth_error cs (skip_clean (skipn (position cs lowest) cs) (position cs lowest)) = Some e -> is_dirty e = true.
Proof.
  intros E. generalize dependent (position cs lowest). intros i E.
  destruct (skip_clean_spec (skipn i cs) i) as [(l & c & r & E1 & E2 & D)|(E1 & E2)].
  - rewrite E2 in E. assert (Hn : forall j, nth_error cs (i + j) = nth_error (skipn i cs) j).
    { clear. revert i. induction cs as [|x cs IH]; intros [|i] j; try reflexivity; [now destruct j|]. cbn [Nat.add skipn nth_error]. apply IH. }
    rewrite Hn, E1, nth_error_mid in E. now injection E as <-.
  - exfalso. rewrite E2 in E. assert (L : (i + length (skipn i cs) >= length cs)%nat) by (rewrite skipn_length; lia).
    assert (nth_error cs (i + length (skipn i cs)) = None) by (apply nth_error_None; lia). congruence.
Qed.

Lemma flush_r_f_kept txg w h : forall lowest nx cs, kept h (Int cs) (Int (fst (fst (flush_r_f txg w h lowest nx cs)))).
Proof.
  induction h as [|[|h] IH]; intros lowest nx cs; [reflexivity| |].
  - apply kept_S. cbn [flush_r_f]. unfold flush_leaves_f. destruct (existsb _ cs).
    + pose proof (leaves_fates_kept 0 txg w cs nx) as K. destruct (leaves_fates txg w nx cs). exact K.
    + pose proof (flush_leaves_kept 0 txg cs nx) as K. destruct (flush_leaves txg nx cs). exact K.
  - rewrite flush_r_f_S. cbv zeta. destruct (nth_error cs _) as [e|] eqn:E; [|apply kept_refl].
    pose proof (skip_dirty _ _ _ E) as D. apply kept_S.
    destruct e as [k s t p m [l|cs1]] eqn:Ee; [apply F2_refl; intros; apply kept_e_refl|].
    destruct (existsb is_dirty cs1).
    + specialize (IH lowest nx cs1). destruct (flush_r_f txg w (S h) lowest nx cs1) as [[cs1' nx'] r]. cbn [fst] in *.
      apply (F2_put _ _ _ _ _ (kept_e_refl (S h)) E). split; [reflexivity|]. split; [exact IH|]. cbn in *. destruct p; [discriminate D|congruence].
    + destruct (min_ts cs1) as [st|]; [|apply F2_refl; intros; apply kept_e_refl].
      destruct (existsb gone cs1); [apply (F2_put _ _ _ _ _ (kept_e_refl (S h)) E); now apply (kept_lose _ (Elem k s t p m (Int cs1)))|].
      destruct (is_lost (w k)); [apply (F2_put _ _ _ _ _ (kept_e_refl (S h)) E); now apply (kept_lose _ (Elem k s t p m (Int cs1)))|].
      apply (F2_put _ _ _ _ _ (kept_e_refl (S h)) E). now apply (kept_written _ _ _ _ (Elem k s t p m (Int cs1))).
Qed.

Lemma iter_kept txg w lowest nx t : kept_t t (fst (fst (flush_iter_f txg w lowest nx t))).
Proof.
  unfold flush_iter_f. destruct (is_dirty (t_root t)) eqn:D; [|apply kept_t_refl].
  apply dirty_ptr in D. destruct t as [[k s te p m n] h]. cbn in D. subst p. cbn [xlock_root t_root t_h].
  assert (Z : forall n', kept h n n' -> forall s' te' p', kept_t (Tree (Elem k s te None m n) h) (Tree (Elem k s' te' p' m n') h)).
  { intros n' K s' te' p'. split; [reflexivity|]. split; [exact K|]. cbn. congruence. }
  destruct n as [l|cs].
  - destruct (is_lost (w k)); cbn [fst lose written]; apply Z, kept_refl.
  - destruct (existsb is_dirty cs).
    + pose proof (flush_r_f_kept txg w h lowest nx cs) as K. destruct (flush_r_f txg w h lowest nx cs) as [[cs' nx'] r]. cbn [fst] in *. now apply Z.
    + destruct (min_ts cs); [|cbn [fst]; apply Z, kept_refl]. destruct (existsb gone cs); [cbn [fst lose]; apply Z, kept_refl|].
      destruct (is_lost (w k)); cbn [fst lose written]; apply Z, kept_refl.
Qed.

Lemma later_kept x y : later x y -> kept_t (fst x) (fst y).
Proof.
  induction 1 as [x|t nx y txg w lowest t1 nx1 r E L IH]; [apply kept_t_refl|]. pose proof (iter_kept txg w lowest nx t) as K. rewrite E in K. eapply kept_t_trans; eauto.
Qed.

(** ** Lookups *)

Lemma kept_position h cs cs' k : Forall2 (kept_e h) cs cs' -> position cs' k = position cs k.
Proof.
  intros H. unfold position. f_equal. induction H as [|e e' cs cs' (K & _) H IH]; [reflexivity|]. cbn [filter]. rewrite K. destruct (e_key e <=? k); cbn [length]; congruence.
Qed.
Lemma F2_nth {A B} (R : A -> B -> Prop) l l' i : Forall2 R l l' -> match nth_error l i, nth_error l' i with Some x, Some y => R x y | None, None => True | _, _ => False end.
Proof. intros H. revert i. induction H as [|x y l l' Hx H IH]; intros [|i]; cbn; auto. apply IH. Qed.
Lemma get_kept h : forall n n' k v, kept h n n' -> get_rf h n' k = Some v -> get_r h n k = Some v.
Proof.
  induction h as [|h IH]; intros n n' k v K G.
  - cbn in K. subst. destruct n; [exact G|discriminate G].
  - destruct n as [l|cs], n' as [l'|cs']; try (apply kept_shape in K; destruct K; fail); [cbn in K; injection K as ->; exact G|].
    apply (proj1 (kept_S _ _ _)) in K. cbn [get_rf get_r] in *. rewrite (kept_position h _ _ _ K) in G. pose proof (F2_nth _ _ _ (position cs k) K) as N.
    destruct (nth_error cs (position cs k)) as [e|], (nth_error cs' (position cs k)) as [e'|]; try (destruct N; fail); [|discriminate G].
    destruct (gone e'); [discriminate G|]. destruct N as (_ & N & _). eapply IH; eauto.
Qed.

(** ** What is on disk or gone stays where it is *)

Lemma elem_in_kept h : forall n n' e, kept h n n' -> elem_in n e -> e_ptr e <> None -> elem_in n' e.
Proof.
  induction h as [|h IH]; intros n n' e K H P; [cbn in K; now subst|].
  destruct n as [l|cs]; [inversion H|]. destruct n' as [l'|cs']; [apply kept_shape in K; destruct K|]. apply (proj1 (kept_S _ _ _)) in K.
  inversion H as [cs0 e0 I|cs0 c e0 I H']; subst.
  - apply In_nth_error in I. destruct I as [i I]. pose proof (F2_nth _ _ _ i K) as N. rewrite I in N. destruct (nth_error cs' i) as [e'|] eqn:E; [|destruct N].
    destruct N as (_ & _ & N). specialize (N P). subst e'. apply elem_here. eapply nth_error_In; eauto.
  - apply In_nth_error in I. destruct I as [i I]. pose proof (F2_nth _ _ _ i K) as N. rewrite I in N. destruct (nth_error cs' i) as [c'|] eqn:E; [|destruct N].
    destruct N as (_ & N & _). apply (elem_below _ c'); [eapply nth_error_In; eauto|]. eapply IH; eauto.
Qed.
Lemma holds_kept t t' e : kept_t t t' -> holds t e -> e_ptr e <> None -> holds t' e.
Proof.
  intros (A & B & C) [->|H] P; [rewrite (C P); now left|]. right. eapply elem_in_kept; eauto.
Qed.
Lemma gone_ptr e : gone e = true -> e_ptr e <> None.
Proof. unfold gone. destruct (e_ptr e); congruence. Qed.

(** ** Nothing is written above a node that is gone *)

Fixpoint whole (h : nat) n : Prop :=
  match h, n with
  | S h', Int cs => Forall (fun e => gone e = false /\ whole h' (e_node e)) cs
  | _, _ => True
  end.
Fixpoint fine (h : nat) n : Prop :=
  match h, n with
  | O, Leaf _ => True
  | S h', Int cs => Forall (fun e => fine h' (e_node e) /\ (is_dirty e = false -> gone e = false -> whole h' (e_node e))) cs
  | _, _ => False
  end.
Definition fine_e h e : Prop := fine h (e_node e) /\ (is_dirty e = false -> gone e = false -> whole h (e_node e)).
Lemma fine_S h cs : fine (S h) (Int cs) <-> Forall (fine_e h) cs.
Proof. reflexivity. Qed.
Lemma fine_0 n : fine 0 n -> exists l, n = Leaf l.
Proof. destruct n; [eauto|intros []]. Qed.
Definition fine_t t : Prop := fine_e (t_h t) (t_root t).

Lemma lose_gone e : gone (lose e) = true. Proof. destruct e. reflexivity. Qed.
Lemma lose_node e : e_node (lose e) = e_node e. Proof. destruct e. reflexivity. Qed.
Lemma fine_lose h e : fine h (e_node e) -> fine_e h (lose e).
Proof. intros F. split; [now rewrite lose_node|]. rewrite lose_gone. discriminate. Qed.
Lemma fine_written h s txg nx e : fine h (e_node e) -> whole h (e_node e) -> fine_e h (written s txg nx e).
Proof. destruct e. cbn. intros F W. split; [exact F|intros _ _; exact W]. Qed.
Lemma written_leaf s txg nx e : fine 0 (e_node e) -> fine_e 0 (written s txg nx e).
Proof. intros F. apply fine_written; [exact F|exact I]. Qed.

Lemma leaves_fates_fine txg w cs : Forall (fine_e 0) cs -> forall nx, Forall (fine_e 0) (fst (leaves_fates txg w nx cs)).
Proof.
  induction 1 as [|e r He H IH]; intros nx; [constructor|]. cbn [leaves_fates]. destruct (is_dirty e).
  - destruct (w (e_key e)).
    + specialize (IH (nx + 1)). destruct (leaves_fates txg w (nx + 1) r). constructor; [apply written_leaf, He|exact IH].
    + specialize (IH nx). destruct (leaves_fates txg w nx r). constructor; [apply fine_lose, He|exact IH].
    + specialize (IH nx). destruct (leaves_fates txg w nx r). constructor; [exact He|exact IH].
  - specialize (IH nx). destruct (leaves_fates txg w nx r). constructor; [exact He|exact IH].
Qed.
Lemma flush_leaves_fine txg cs : Forall (fine_e 0) cs -> forall nx, Forall (fine_e 0) (fst (flush_leaves txg nx cs)).
Proof.
  induction 1 as [|e r He H IH]; intros nx; [constructor|]. destruct e as [k s t p m n]. cbn [flush_leaves]. destruct p.
  - specialize (IH nx). destruct (flush_leaves txg nx r). constructor; [exact He|exact IH].
  - specialize (IH (nx + 1)). destruct (flush_leaves txg (nx + 1) r). constructor; [|exact IH]. apply (written_leaf txg txg nx (Elem k s t None m n)), He.
Qed.
Lemma Forall_put (P : elem V -> Prop) cs i e' : Forall P cs -> P e' -> Forall P (put_child cs i e').
Proof.
  intros H He. unfold put_child. apply Forall_app. split; [|constructor; [exact He|]].
  - apply Forall_forall. intros x Hx. rewrite Forall_forall in H. apply H. rewrite <- (firstn_skipn i cs). apply in_or_app. now left.
  - apply Forall_forall. intros x Hx. rewrite Forall_forall in H. apply H. rewrite <- (firstn_skipn (S i) cs). apply in_or_app. now right.
Qed.
Lemma no_dirty_no_gone h cs : Forall (fine_e h) cs -> existsb is_dirty cs = false -> existsb gone cs = false -> whole (S h) (Int cs).
Proof.
  cbn [whole]. induction 1 as [|e r (F & W) H IH]; intros D G; [constructor|]. cbn [existsb] in D, G. apply orb_false_elim in D, G. destruct D as [D D'], G as [G G'].
  constructor; [split; [exact G|now apply W]|now apply IH].
Qed.

Lemma flush_r_f_fine txg w h : forall lowest nx cs, fine h (Int cs) -> fine h (Int (fst (fst (flush_r_f txg w h lowest nx cs)))).
Proof.
  induction h as [|[|h] IH]; intros lowest nx cs F; [exact F| |].
  - apply fine_S. apply (proj1 (fine_S _ _)) in F. cbn [flush_r_f]. unfold flush_leaves_f. destruct (existsb _ cs).
    + pose proof (leaves_fates_fine txg w cs F nx) as K. destruct (leaves_fates txg w nx cs). exact K.
    + pose proof (flush_leaves_fine txg cs F nx) as K. destruct (flush_leaves txg nx cs). exact K.
  - rewrite flush_r_f_S. cbv zeta. destruct (nth_error cs _) as [e|] eqn:E; [|exact F].
    pose proof (skip_dirty _ _ _ E) as D. apply (proj1 (fine_S _ _)) in F. apply fine_S.
    assert (Fe : fine_e (S h) e) by (rewrite Forall_forall in F; apply F; eapply nth_error_In; eauto).
    destruct e as [k s t p m [l|cs1]] eqn:Ee; [exact F|]. destruct Fe as [Fe _]. cbn [e_node] in Fe.
    destruct (existsb is_dirty cs1) eqn:D1.
    + specialize (IH lowest nx cs1 Fe). destruct (flush_r_f txg w (S h) lowest nx cs1) as [[cs1' nx'] r]. cbn [fst] in *.
      apply Forall_put; [exact F|]. split; [exact IH|]. cbn in D |- *. destruct p; [discriminate D|]. discriminate.
    + destruct (min_ts cs1) as [st|]; [|exact F].
      destruct (existsb gone cs1) eqn:G1; [apply Forall_put; [exact F|]; now apply (fine_lose _ (Elem k s t p m (Int cs1)))|].
      destruct (is_lost (w k)); [apply Forall_put; [exact F|]; now apply (fine_lose _ (Elem k s t p m (Int cs1)))|].
      apply Forall_put; [exact F|]. apply (fine_written _ _ _ _ (Elem k s t p m (Int cs1))); [exact Fe|]. apply no_dirty_no_gone; assumption.
Qed.

Lemma iter_fine txg w lowest nx t : fine_t t -> fine_t (fst (fst (flush_iter_f txg w lowest nx t))).
Proof.
  unfold flush_iter_f. destruct (is_dirty (t_root t)) eqn:D; [|intros F; exact F].
  destruct t as [[k s te p m n] h]. cbn [xlock_root t_root t_h]. intros [F _]. cbn [t_root t_h e_node] in F.
  destruct n as [l|cs].
  - destruct (is_lost (w k)); cbn [fst]; unfold fine_t; cbn [t_root t_h]; [now apply (fine_lose h (Elem k s (txg + 1) None m (Leaf l)))|].
    apply (fine_written h txg txg nx (Elem k s (txg + 1) None m (Leaf l))); [exact F|]. destruct h; [exact I|destruct F].
  - destruct (existsb is_dirty cs) eqn:D1.
    + pose proof (flush_r_f_fine txg w h lowest nx cs F) as K. destruct (flush_r_f txg w h lowest nx cs) as [[cs' nx'] r]. cbn [fst] in *. split; [exact K|]. discriminate.
    + destruct (min_ts cs); [|cbn [fst]; split; [exact F|discriminate]].
      destruct (existsb gone cs) eqn:G1; [cbn [fst]; now apply (fine_lose h (Elem k s (txg + 1) None m (Int cs)))|].
      destruct (is_lost (w k)); cbn [fst]; [now apply (fine_lose h (Elem k s (txg + 1) None m (Int cs)))|].
      apply (fine_written h z txg nx (Elem k s (txg + 1) None m (Int cs))); [exact F|]. destruct h; [destruct F|]. apply no_dirty_no_gone; assumption.
Qed.
Lemma later_fine x y : later x y -> fine_t (fst x) -> fine_t (fst y).
Proof.
  induction 1 as [x|t nx y txg w lowest t1 nx1 r E L IH]; [auto|]. intros F. apply IH. pose proof (iter_fine txg w lowest nx t F) as K. rewrite E in K. exact K.
Qed.
Lemma whole_elem_in h : forall n e, fine h n -> whole h n -> elem_in n e -> gone e = false.
Proof.
  induction h as [|h IH]; intros n e F W H; [apply fine_0 in F; destruct F as [l ->]; inversion H|].
  destruct n as [l|cs]; [destruct F|]. apply (proj1 (fine_S _ _)) in F. cbn in W. rewrite Forall_forall in F, W.
  inversion H as [cs0 e0 I|cs0 c e0 I H']; subst; [now apply W|]. eapply IH; [apply F, I|apply W, I|exact H'].
Qed.
Lemma gone_not_serialized t e : fine_t t -> holds t e -> gone e = true -> serialize_f t = None.
Proof.
  intros [F W] H G. unfold serialize_f. destruct (gone (t_root t)) eqn:Gr; [reflexivity|].
  destruct H as [->|H]; [congruence|]. unfold serialize. destruct (is_dirty (t_root t)) eqn:D.
  - apply dirty_ptr in D. destruct (t_root t) as [k s te p m n]. cbn in D. now subst p.
  - specialize (W eq_refl eq_refl). rewrite (whole_elem_in _ _ _ F W H) in G. discriminate.
Qed.

(** ** A flush that fails has lost a node *)

Lemma leaves_fates_gone txg w cs : existsb (fun e => is_dirty e && is_lost (w (e_key e))) cs = true ->
  forall nx, exists e, In e (fst (leaves_fates txg w nx cs)) /\ gone e = true.
Proof.
  induction cs as [|e r IH]; [discriminate|]. cbn [existsb leaves_fates]. intros H nx. destruct (is_dirty e).
  - cbn [andb] in H. destruct (w (e_key e)); cbn [is_lost orb] in H.
    + destruct (IH H (nx + 1)) as (x & X & G). destruct (leaves_fates txg w (nx + 1) r). exists x. split; [now right|exact G].
    + destruct (leaves_fates txg w nx r). exists (lose e). split; [now left|apply lose_gone].
    + destruct (IH H nx) as (x & X & G). destruct (leaves_fates txg w nx r). exists x. split; [now right|exact G].
  - cbn [andb orb] in H. destruct (IH H nx) as (x & X & G). destruct (leaves_fates txg w nx r). exists x. split; [now right|exact G].
Qed.
Lemma in_put cs i e : In e (put_child cs i e).
Proof. unfold put_child. apply in_or_app. right. now left. Qed.
Lemma flush_r_f_gone txg w h : forall lowest nx cs cs' nx', flush_r_f txg w h lowest nx cs = (cs', nx', RFailed) -> exists e, elem_in (Int cs') e /\ gone e = true.
Proof.
  induction h as [|[|h] IH]; intros lowest nx cs cs' nx' R; [discriminate R| |].
  - cbn [flush_r_f] in R. unfold flush_leaves_f in R. destruct (existsb _ cs) eqn:E.
    + destruct (leaves_fates_gone txg w cs E nx) as (e & Ie & G). destruct (leaves_fates txg w nx cs) as [a b]. injection R as <- <-. exists e. split; [now apply elem_here|exact G].
    + destruct (flush_leaves txg nx cs); discriminate R.
  - rewrite flush_r_f_S in R. cbv zeta in R. destruct (nth_error cs _) as [e|] eqn:E; [|discriminate R].
    destruct e as [k s t p m [l|cs1]] eqn:Ee; [discriminate R|]. destruct (existsb is_dirty cs1).
    + destruct (flush_r_f txg w (S h) lowest nx cs1) as [[cs1' nx1] r] eqn:R1. destruct r as [[k1|]| |]; try discriminate R. injection R as <- <-.
      destruct (IH _ _ _ _ _ R1) as (x & X & G). exists x. split; [|exact G]. eapply elem_below; [apply in_put|exact X].
    + destruct (min_ts cs1); [|discriminate R]. destruct (existsb gone cs1); [discriminate R|]. destruct (is_lost (w k)); [|discriminate R].
      injection R as <- <-. exists (Elem k s t (Some nowhere) m (Int cs1)). split; [apply elem_here, in_put|reflexivity].
Qed.
Lemma iter_gone txg w lowest nx t t' nx' : flush_iter_f txg w lowest nx t = (t', nx', Failed) -> exists e, holds t' e /\ gone e = true.
Proof.
  unfold flush_iter_f. destruct (is_dirty (t_root t)) eqn:D; [|discriminate].
  destruct t as [[k s te p m n] h]. cbn [xlock_root t_root t_h]. destruct n as [l|cs].
  - destruct (is_lost (w k)); intros R; [|discriminate R]. injection R as <- <-. eexists. split; [now left|]. reflexivity.
  - destruct (existsb is_dirty cs) eqn:D1.
    + destruct (flush_r_f txg w h lowest nx cs) as [[cs' nx1] r] eqn:R1. destruct r as [[k1|]| |]; intros R; try discriminate R. injection R as <- <-.
      destruct (flush_r_f_gone _ _ _ _ _ _ _ _ R1) as (x & X & G). exists x. split; [right; exact X|exact G].
    + destruct (min_ts cs); [|discriminate]. destruct (existsb gone cs); [discriminate|]. destruct (is_lost (w k)); intros R; [|discriminate R].
      injection R as <- <-. eexists. split; [now left|]. reflexivity.
Qed.

(** ** Some key of a node that is gone cannot be looked up *)

Section Lookup.
Context (lim : limits) (mi ml : nat) (HL : lims_ok lim mi ml).
Notation good := (good lim mi ml).
Notation egood := (egood lim mi ml).
Lemma gone_key h : forall lo hi ts te n n' e, good h lo hi ts te n -> kept h n n' -> elem_in n' e -> gone e = true ->
  exists k v, In (k, v) (flat h n) /\ get_rf h n' k = None.
Proof.
  induction h as [|h IH]; intros lo hi ts te n n' e G K H D.
  - destruct n as [l|cs]; [|destruct G]. cbn in K. subst. inversion H.
  - destruct n as [l|cs]; [destruct G|]. destruct n' as [l'|cs']; [apply kept_shape in K; destruct K|]. apply (proj1 (kept_S _ _ _)) in K. apply good_S in G. destruct G as [C _].
    assert (Z : exists c c', (exists i, nth_error cs i = Some c /\ nth_error cs' i = Some c') /\ (gone c' = true \/ gone c' = false /\ elem_in (e_node c') e)).
    { assert (Y : exists c', In c' cs' /\ (gone c' = true \/ gone c' = false /\ elem_in (e_node c') e)).
      { inversion H as [cs0 e0 I|cs0 c e0 I H']; subst; [exists e; auto|]. exists c. split; [exact I|]. destruct (gone c) eqn:Gc; auto. }
      destruct Y as (c' & Ic & Y). apply In_nth_error in Ic. destruct Ic as [i Ic]. pose proof (F2_nth _ _ _ i K) as N. rewrite Ic in N.
      destruct (nth_error cs i) as [c|] eqn:E; [|destruct N]. exists c, c'. split; [exists i; auto|exact Y]. }
    destruct Z as (c & c' & (i & Ei & Ei') & Z).
    apply nth_error_split in Ei. destruct Ei as (l & r & -> & Ll).
    assert (Ck : forall k v, In (k, v) (flat h (e_node c)) -> position (l ++ c :: r) k = i).
    { intros k v Ikv. rewrite <- Ll. pose proof C as C0. apply chain_app in C0. destruct C0 as [_ C0]. cbn [chain] in C0. destruct C0 as (_ & (_ & _ & _ & _ & Gc) & _).
      apply good_flat in Gc. destruct Gc as [_ Gc]. rewrite Forall_forall in Gc. specialize (Gc _ Ikv). destruct Gc as [G1 G2]. cbn [fst] in *.
      eapply position_at; [exact C|right; exact G1|]. destruct r as [|c2 r]; [exact I|exact G2]. }
    assert (Gc : egood h c (nextkey hi r)).
    { pose proof C as C0. apply chain_app in C0. destruct C0 as [_ C0]. cbn [chain] in C0. apply C0. }
    assert (Kc : kept_e h c c').
    { pose proof (F2_nth _ _ _ i K) as N. rewrite <- Ll, nth_error_mid in N. rewrite Ll, Ei' in N. exact N. }
    assert (X : exists k v, In (k, v) (flat h (e_node c)) /\ (gone c' = true \/ get_rf h (e_node c') k = None)).
    { destruct Gc as (_ & _ & Lc & _ & Gc). destruct Z as [Z|[_ Z]].
      - pose proof (good_flat_nonempty lim mi ml HL h _ _ _ _ _ Gc Lc) as Ne. destruct (flat h (e_node c)) as [|[k v] q]; [congruence|]. exists k, v. split; [now left|now left].
      - destruct (IH _ _ _ _ _ _ _ Gc (proj1 (proj2 Kc)) Z D) as (k & v & I1 & I2). exists k, v. auto. }
    destruct X as (k & v & Ikv & X). exists k, v. split.
    + cbn [flat]. apply in_flat_map. exists c. split; [apply in_or_app; right; now left|exact Ikv].
    + cbn [get_rf]. rewrite (kept_position h _ _ _ K), (Ck k v Ikv), Ei'. destruct X as [->|X]; [reflexivity|]. destruct (gone c'); [reflexivity|exact X].
Qed.
End Lookup.

(** ** Without failures it is the flush of C30 *)

Definition whole_e h e : Prop := gone e = false /\ whole h (e_node e).
Lemma whole_S h cs : whole (S h) (Int cs) <-> Forall (whole_e h) cs.
Proof. reflexivity. Qed.
Lemma whole_written h s txg nx e : 0 <= nx -> whole h (e_node e) -> whole_e h (written s txg nx e).
Proof. destruct e. cbn. intros N W. split; [|exact W]. unfold gone. cbn. lia. Qed.
Lemma flush_leaves_whole h txg cs : Forall (whole_e h) cs -> forall nx, 0 <= nx -> Forall (whole_e h) (fst (flush_leaves txg nx cs)) /\ nx <= snd (flush_leaves txg nx cs).
Proof.
  induction 1 as [|e r He H IH]; intros nx N; [split; [constructor|cbn; lia]|]. destruct e as [k s t p m n]. cbn [flush_leaves]. destruct p.
  - specialize (IH nx N). destruct (flush_leaves txg nx r). destruct IH. split; [constructor; assumption|assumption].
  - specialize (IH (nx + 1) ltac:(lia)). destruct (flush_leaves txg (nx + 1) r). cbn [fst snd] in *. destruct IH as [I1 I2]. split; [|lia]. constructor; [|exact I1].
    apply (whole_written h txg txg nx (Elem k s t None m n)); [exact N|apply He].
Qed.
Lemma whole_no_gone h cs : Forall (whole_e h) cs -> existsb gone cs = false.
Proof. induction 1 as [|e r (G & _) H IH]; [reflexivity|]. cbn [existsb]. now rewrite G, IH. Qed.

Lemma flush_r_same txg w h : forall lowest nx cs cs' nx' k, whole h (Int cs) -> 0 <= nx -> flush_r txg h lowest nx cs = Some (cs', nx', k) ->
  flush_r_f txg w h lowest nx cs = (cs', nx', Next k) /\ whole h (Int cs') /\ nx <= nx' \/ snd (flush_r_f txg w h lowest nx cs) = RFailed.
Proof.
  induction h as [|[|h] IH]; intros lowest nx cs cs' nx' k W N R; [discriminate R| |].
  - apply (proj1 (whole_S _ _)) in W. cbn [flush_r flush_r_f] in *. unfold flush_leaves_f. pose proof (flush_leaves_whole 0 txg cs W nx N) as K.
    destruct (existsb _ cs); [right; destruct (leaves_fates txg w nx cs); reflexivity|]. left. destruct (flush_leaves txg nx cs) as [a b]. injection R as <- <- <-. split; [reflexivity|]. split; [|apply K]. apply whole_S, K.
  - rewrite flush_r_S in R. rewrite flush_r_f_S. cbv zeta in *. apply (proj1 (whole_S _ _)) in W. destruct (nth_error cs _) as [e|] eqn:E.
    2:{ injection R as <- <- <-. left. split; [reflexivity|]. split; [exact W|lia]. }
    assert (We : whole_e (S h) e) by (rewrite Forall_forall in W; apply W; eapply nth_error_In; eauto).
    destruct e as [ek s t p m [l|cs1]]; [discriminate R|]. destruct We as [Ge We]. cbn [e_node] in We.
    destruct (existsb is_dirty cs1) eqn:D1.
    + destruct (flush_r txg (S h) lowest nx cs1) as [[[cs1' nx1] ck]|] eqn:R1; [|discriminate R].
      destruct (IH lowest nx cs1 cs1' nx1 ck We N R1) as [(I1 & I2 & I3)|I1].
      * left. rewrite I1. injection R as <- <- <-. split; [destruct ck; reflexivity|]. split; [|exact I3]. apply whole_S. apply Forall_put; [exact W|]. split; [exact Ge|exact I2].
      * right. destruct (flush_r_f txg w (S h) lowest nx cs1) as [[a b] r]. cbn [snd] in I1. subst r. reflexivity.
    + destruct (min_ts cs1) as [st|]; [|discriminate R]. rewrite (whole_no_gone h cs1 We). destruct (is_lost (w ek)); [right; reflexivity|]. left.
      injection R as <- <- <-. split; [reflexivity|]. split; [|lia]. apply whole_S. apply Forall_put; [exact W|]. apply (whole_written _ st txg nx (Elem ek s t p m (Int cs1))); assumption.
Qed.

Definition conv (r : Z + bool) : ires := match r with Datatypes.inl k => Goes k | Datatypes.inr true => Again | Datatypes.inr false => Done end.
Lemma iter_same txg w lowest nx t t' nx' r : fine_t t -> whole_e (t_h t) (t_root t) -> 0 <= nx -> flush_iter txg lowest nx t = Some (t', nx', r) ->
  flush_iter_f txg w lowest nx t = (t', nx', conv r) /\ whole_e (t_h t') (t_root t') /\ nx <= nx' \/ snd (flush_iter_f txg w lowest nx t) = Failed.
Proof.
  unfold flush_iter, flush_iter_f. intros F W N. destruct (is_dirty (t_root t)) eqn:D.
  2:{ intros R. injection R as <- <- <-. left. split; [reflexivity|]. split; [exact W|lia]. }
  destruct t as [[k s te p m n] h]. cbn [xlock_root t_root t_h] in *. destruct W as [Gr W]. cbn [e_node] in W. destruct n as [l|cs].
  - intros R. destruct (is_lost (w k)); [right; reflexivity|]. left. injection R as <- <- <-. split; [reflexivity|]. split; [|lia].
    apply (whole_written h txg txg nx (Elem k s te p m (Leaf l))); assumption.
  - destruct (existsb is_dirty cs) eqn:D1.
    + destruct (flush_r txg h lowest nx cs) as [[[cs' nx1] ck]|] eqn:R1; [|discriminate]. intros R.
      destruct (flush_r_same txg w h lowest nx cs cs' nx1 ck W N R1) as [(I1 & I2 & I3)|I1].
      * left. rewrite I1. destruct ck as [key|]; injection R as <- <- <-; (split; [reflexivity|]); (split; [|exact I3]); (split; [reflexivity|exact I2]).
      * right. destruct (flush_r_f txg w h lowest nx cs) as [[a b] r']. cbn [snd] in I1. subst r'. reflexivity.
    + destruct (min_ts cs) as [st|]; [|discriminate]. intros R. assert (Gc : existsb gone cs = false) by (destruct h; [destruct F as [[] _]|now apply (whole_no_gone h)]).
      rewrite Gc. destruct (is_lost (w k)); [right; reflexivity|]. left. injection R as <- <- <-. split; [reflexivity|]. split; [|lia].
      apply (whole_written h st txg nx (Elem k s te p m (Int cs))); assumption.
Qed.

Lemma fine_kept txg w lowest nx t t' nx' r : fine_t t -> flush_iter_f txg w lowest nx t = (t', nx', r) -> fine_t t'.
Proof. intros F E. pose proof (iter_fine txg w lowest nx t F) as K. rewrite E in K. exact K. Qed.
Lemma loop_same txg fuel : forall w lowest nx t t' nx', fine_t t -> whole_e (t_h t) (t_root t) -> 0 <= nx -> flush_loop fuel txg lowest nx t = Some (t', nx') ->
  flush_f fuel txg w lowest nx t = Some (t', nx', Done) \/ exists t1 nx1, flush_f fuel txg w lowest nx t = Some (t1, nx1, Failed).
Proof.
  induction fuel as [|fuel IH]; intros w lowest nx t t' nx' F W N R; [discriminate R|]. cbn [flush_loop flush_f] in *.
  destruct (flush_iter txg lowest nx t) as [[[ta nxa] r]|] eqn:E; [|discriminate R].
  destruct (iter_same txg (w O) lowest nx t ta nxa r F W N E) as [(I1 & I2 & I3)|I1].
  - pose proof (fine_kept _ _ _ _ _ _ _ _ F I1) as Fa. rewrite I1. destruct r as [k|[|]]; cbn [conv].
    + apply (IH (fun i => w (S i)) k nxa ta t' nx' Fa I2 ltac:(lia) R).
    + apply (IH (fun i => w (S i)) 0 nxa ta t' nx' Fa I2 ltac:(lia) R).
    + injection R as <- <-. now left.
  - right. destruct (flush_iter_f txg (w O) lowest nx t) as [[a b] r']. cbn [snd] in I1. subst r'. eauto.
Qed.
Lemma flush_f_later txg fuel : forall w lowest nx t t' nx' r, flush_f fuel txg w lowest nx t = Some (t', nx', r) -> later (t, nx) (t', nx').
Proof.
  induction fuel as [|fuel IH]; intros w lowest nx t t' nx' r R; [discriminate R|]. cbn [flush_f] in R.
  destruct (flush_iter_f txg (w O) lowest nx t) as [[ta nxa] ra] eqn:E. apply (later_iter _ _ _ _ _ _ _ _ _ E).
  destruct ra; try (injection R as <- <- <-; constructor); eapply IH; eauto.
Qed.
Lemma flush_f_gone txg fuel : forall w lowest nx t t' nx', flush_f fuel txg w lowest nx t = Some (t', nx', Failed) -> exists e, holds t' e /\ gone e = true.
Proof.
  induction fuel as [|fuel IH]; intros w lowest nx t t' nx' R; [discriminate R|]. cbn [flush_f] in R.
  destruct (flush_iter_f txg (w O) lowest nx t) as [[ta nxa] ra] eqn:E.
  destruct ra; try discriminate R; try (eapply IH; eauto; fail). injection R as <- <-. eapply iter_gone; eauto.
Qed.
Lemma get_none_kept h : forall n n' k, kept h n n' -> get_rf h n k = None -> get_rf h n' k = None.
Proof.
  induction h as [|h IH]; intros n n' k K G.
  - cbn in K. now subst.
  - destruct n as [l|cs], n' as [l'|cs']; try (apply kept_shape in K; destruct K; fail); [discriminate G|].
    apply (proj1 (kept_S _ _ _)) in K. cbn [get_rf] in *. rewrite (kept_position h _ _ _ K). pose proof (F2_nth _ _ _ (position cs k) K) as N.
    destruct (nth_error cs (position cs k)) as [e|], (nth_error cs' (position cs k)) as [e'|]; try (destruct N; fail); [|reflexivity].
    destruct N as (_ & N & P). destruct (gone e) eqn:Ge; [rewrite (P (gone_ptr _ Ge)), Ge; reflexivity|]. destruct (gone e'); [reflexivity|]. eapply IH; eauto.
Qed.
Lemma get_f_none_kept t t' k : kept_t t t' -> get_f t k = None -> get_f t' k = None.
Proof.
  intros (A & B & C) G. unfold get_f in *. destruct (gone (t_root t)) eqn:Gt; [rewrite (C (gone_ptr _ Gt)), Gt; reflexivity|].
  destruct (gone (t_root t')); [reflexivity|]. rewrite A. eapply get_none_kept; eauto.
Qed.

(** ** Trees that arise *)
Section Good.
Context (lim : limits) (mi ml : nat).
Lemma good_fine h : forall lo hi ts te n, good lim mi ml h lo hi ts te n -> (forall e a, elem_in n e -> e_ptr e = Some a -> 0 <= a_id a) -> fine h n /\ whole h n.
Proof.
  induction h as [|h IH]; intros lo hi ts te n G A; destruct n as [l|cs]; try (destruct G; fail); [split; exact I|].
  apply (proj1 (good_S _ _ _ _ _ _ _ _ _)) in G. destruct G as [C _].
  assert (H : Forall (fun e => fine h (e_node e) /\ whole h (e_node e) /\ gone e = false) cs).
  { apply Forall_forall. intros e Ie.
    assert (Ge : exists nx, egood lim mi ml h e nx) by (apply (chain_in _ _ _ _ _ C Ie)).
    destruct Ge as (nx & _ & _ & _ & _ & Ge). destruct (IH _ _ _ _ _ Ge) as [F W].
    { intros e' a E. apply A. eapply elem_below; eauto. }
    split; [exact F|]. split; [exact W|]. unfold gone. destruct (e_ptr e) as [a|] eqn:P; [|reflexivity]. specialize (A e a (elem_here _ _ Ie) P). lia. }
  split.
  - apply fine_S. eapply Forall_impl; [|exact H]. intros e (F & W & G). split; [exact F|]. intros _ _. exact W.
  - apply whole_S. eapply Forall_impl; [|exact H]. intros e (F & W & G). split; assumption.
Qed.
End Good.

Lemma start_ok lim (s : st V) m : legal_limits lim -> after lim s m -> natural s ->
  fine_t (s_tree s) /\ whole_e (t_h (s_tree s)) (t_root (s_tree s)).
Proof.
  intros HL A [N A0]. destruct (after_inv lim HL s m A) as (nx0 & G & _). unfold tgood in G. unfold fine_t.
  destruct (t_root (s_tree s)) as [rk rs rt rp rm rn] eqn:Er. destruct G as (_ & G & _).
  destruct (good_fine lim _ _ _ _ _ _ _ _ G) as [F W].
  { intros e a E. apply A0. right. now rewrite Er. }
  assert (Gr : gone (t_root (s_tree s)) = false).
  { unfold gone. destruct (e_ptr (t_root (s_tree s))) as [a|] eqn:P; [|reflexivity]. specialize (A0 _ a (or_introl eq_refl) P). lia. }
  rewrite Er in Gr. split; (split; [assumption|]); [intros _ _|]; exact W.
Qed.
End Proofs.

(** * Theorems *)

(** C103: a flush always ends.  If no write fails, it is that of C30, after which everything is on disk; otherwise it reports failure. *)
Theorem C103_ends {V} lim (s : st V) m w : legal_limits lim -> after lim s m -> natural s ->
  exists t' nx', flush (s_txg s) (s_nx s) (s_tree s) = Some (t', nx') /\
  exists fuel, flush_f fuel (s_txg s) w 0 (s_nx s) (s_tree s) = Some (t', nx', Done) \/
               exists t1 nx1, flush_f fuel (s_txg s) w 0 (s_nx s) (s_tree s) = Some (t1, nx1, Failed).
Proof.
  intros HL A N. destruct (C30_flush_cleans lim s m HL A) as (t' & nx' & E & _). exists t', nx'. split; [exact E|].
  destruct (start_ok lim s m HL A N) as [F W]. eexists. unfold flush in E. eapply loop_same; [exact F|exact W|apply N|exact E].
Qed.

(** C103: whatever fails, a lookup never returns anything but what was stored *)
Theorem C103_reads {V} lim (s : st V) m t' nx' k v : legal_limits lim -> after lim s m -> later (s_tree s, s_nx s) (t', nx') ->
  get_f t' k = Some v -> v = m k.
Proof.
  intros HL A L G. apply later_kept in L. destruct L as (H & K & _). cbn [fst] in *. unfold get_f in G. destruct (gone (t_root t')); [discriminate G|]. rewrite H in G.
  pose proof (get_kept _ _ _ _ _ K G) as E. pose proof (C27_get_as_map lim s m k HL A) as E'. unfold get in E'. congruence.
Qed.

(** C103: whatever fails, records that were on disk stay in the tree, unchanged and at their addresses *)
Theorem C103_disk {V} lim (s : st V) m t' nx' e a : legal_limits lim -> after lim s m -> later (s_tree s, s_nx s) (t', nx') ->
  holds (s_tree s) e -> e_ptr e = Some a -> holds t' e.
Proof. intros HL A L H P. apply later_kept in L. eapply holds_kept; [exact L|exact H|congruence]. Qed.

(** C103: but if a flush fails, something is lost: there is a key that was stored (any key, if none was) that can never be looked up again, and no later flush
    gives a tree that could be recorded on disk *)
Theorem C103_failure_loses {V} lim (s : st V) m fuel w t1 nx1 : legal_limits lim -> after lim s m -> natural s ->
  flush_f fuel (s_txg s) w 0 (s_nx s) (s_tree s) = Some (t1, nx1, Failed) ->
  exists k, (m k <> None \/ forall j, m j = None) /\
  forall t2 nx2, later (t1, nx1) (t2, nx2) -> get_f t2 k = None /\ serialize_f t2 = None.
Proof.
  intros HL A N R. pose proof (flush_f_later _ _ _ _ _ _ _ _ _ R) as L. destruct (start_ok lim s m HL A N) as [F W].
  pose proof (later_fine _ _ L F) as F1. pose proof (later_kept _ _ L) as K1. cbn [fst] in F1, K1.
  destruct (flush_f_gone _ _ _ _ _ _ _ _ R) as (e & He & Ge).
  assert (X : exists k, (m k <> None \/ forall j, m j = None) /\ get_f t1 k = None).
  { destruct (after_inv lim HL s m A) as (nx0 & G & M & _). destruct (gone (t_root t1)) eqn:Gr.
    - destruct (contents (s_tree s)) as [|[k v] c] eqn:C.
      + exists 0. split; [right; intros j; rewrite M; reflexivity|]. unfold get_f. now rewrite Gr.
      + exists k. split; [left; rewrite M; cbn; rewrite Z.eqb_refl; discriminate|]. unfold get_f. now rewrite Gr.
    - destruct He as [->|He]; [congruence|]. pose proof (tgood_ok lim _ _ _ _ G) as Ok. unfold contents in *. unfold tgood in G. destruct K1 as (H & K & _).
      destruct (t_root (s_tree s)) as [rk rs rt rp rm rn]. destruct G as (_ & G & _). cbn [e_node] in *.
      destruct (gone_key lim _ _ (lims lim HL) _ _ _ _ _ _ _ _ G K He Ge) as (k & v & Ik & E). exists k. split.
      + left. rewrite M. rewrite (zm_in_get _ _ _ Ok Ik). discriminate.
      + unfold get_f. rewrite Gr, H. exact E. }
  destruct X as (k & Hk & E). exists k. split; [exact Hk|]. intros t2 nx2 L2. pose proof (later_fine _ _ L2 F1) as F2. pose proof (later_kept _ _ L2) as K2. cbn [fst] in *.
  split; [eapply get_f_none_kept; eauto|]. eapply gone_not_serialized; [exact F2|eapply holds_kept; [exact K2|exact He|now apply gone_ptr]|exact Ge].
Qed.

(** * Examples *)

(** in the first iteration the write of the leaf at 8 fails *)
Definition ex_w (i : nat) (k : Z) : fate := match i with O => if k =? 8 then Lost else Written | _ => Written end.
Definition ex_failed : tree Z * Z := match flush_f 50 (s_txg ex_st) ex_w 0 (s_nx ex_st) (s_tree ex_st) with Some (t, nx, Failed) => (t, nx) | _ => (s_tree ex_st, 0) end.
Example C103_ex_natural : natural ex_st.
Proof.
  split; [vm_compute; discriminate|]. intros e a H P.
  destruct (after_inv ex_lim ex_legal_limits _ _ ex_after) as (nx0 & G & _ & _). apply (holds_addrs ex_lim _ _ _ _ G H) in P.
  revert P. vm_compute. intuition (subst; discriminate).
Qed.
(** the leaf at 4 was written, that at 28 is still in memory *)
Example C103_ex : snd ex_failed = 114 /\ map (get_f (fst ex_failed)) [4; 7; 8; 9; 10; 11; 29; 40] =
  [Some (Some 5); Some (Some 1); None; None; None; Some (Some 6); Some (Some 13); Some (Some 400)].
Proof. split; vm_compute; reflexivity. Qed.

(** What is false: that a flush that fails loses nothing.  Here the write of one leaf fails once, and no other write ever does: the three values in the leaf are
    gone, and the next flush panics. *)
Theorem C103_keeps_refuted : exists (s : st Z) m w t1 nx1, after ex_lim s m /\ natural s /\ flush_f 50 (s_txg s) w 0 (s_nx s) (s_tree s) = Some (t1, nx1, Failed) /\
  m 8 = Some 10 /\ get_f t1 8 = None /\
  exists t2 nx2, flush_f 50 (s_txg s) (fun _ _ => Written) 0 nx1 t1 = Some (t2, nx2, Panicked).
Proof.
  exists ex_st, (fst (map_run (fun _ => None) ex_ops)), ex_w, (fst ex_failed), (snd ex_failed). split; [exact ex_after|]. split; [exact C103_ex_natural|].
  split; [vm_compute; reflexivity|]. split; [vm_compute; reflexivity|]. split; [vm_compute; reflexivity|]. eexists _, _. vm_compute. reflexivity.
Qed.

(** If the write of the root fails, the next flush reports success though there is nothing to record: recording it panics. *)
Theorem C103_success_refuted : exists (s : st Z) m w t1 nx1, after ex_lim s m /\ natural s /\ flush_f 50 (s_txg s) w 0 (s_nx s) (s_tree s) = Some (t1, nx1, Failed) /\
  flush_f 50 (s_txg s) (fun _ _ => Written) 0 nx1 t1 = Some (t1, nx1, Done) /\ serialize_f t1 = None.
Proof.
  set (w := fun (i : nat) (k : Z) => match i with 4%nat => Lost | _ => Written end).
  exists ex_st, (fst (map_run (fun _ => None) ex_ops)), w.
  exists (match flush_f 50 (s_txg ex_st) w 0 (s_nx ex_st) (s_tree ex_st) with Some (t, _, _) => t | None => s_tree ex_st end), 118.
  split; [exact ex_after|]. split; [exact C103_ex_natural|]. split; [vm_compute; reflexivity|]. split; vm_compute; reflexivity.
Qed.

Print Assumptions C103_ends.
Print Assumptions C103_reads.
Print Assumptions C103_disk.
Print Assumptions C103_failure_loses.
Print Assumptions C103_keeps_refuted.
Print Assumptions C103_success_refuted.
