(** Proofs about opening data sets and syncing transactions. *)
From Verif Require Import Common FSM_Model ZMap Sync_Model.
From Coq Require Import Sorting.Sorted.

(** ** Executions *)
Inductive exec (P : st -> lab -> Prop) (s0 : st) : list ev -> st -> Prop :=
| e_nil : exec P s0 [] s0
| e_snoc tr s l s' es : exec P s0 tr s -> P s l -> step s l = Some (s', es) -> exec P s0 (tr ++ es) s'.

(** No task starts to open data set [i] while another is opening it. *)
Definition opens (i : Z) (k : task) : bool := match k with TGet _ j | TReg _ j _ => j =? i | _ => false end.
Definition opens_alone (i : Z) (s : st) (l : lab) : Prop :=
  match l with
  | LStep t _ => match lget (tasks s) t with
                 | Some (TOpen _ j) => j = i -> existsb (opens i) (tasks s) = false
                 | _ => True
                 end
  | LCall _ => True
  end.

Lemma existsb_lget {A} (p : A -> bool) l : existsb p l = false -> forall t k, lget l t = Some k -> p k = false.
Proof.
  intros E t k G. destruct (p k) eqn:Ek; [|reflexivity]. exfalso. assert (existsb p l = true); [|congruence].
  apply existsb_exists. exists k. split; [|exact Ek]. unfold lget in G. destruct (t <? 0); [discriminate|]. eapply nth_error_In; eauto.
Qed.
Lemma existsb_lget_true {A} (p : A -> bool) l t k : lget l t = Some k -> p k = true -> existsb p l = true.
Proof.
  intros G Ek. apply existsb_exists. exists k. split; [|exact Ek]. unfold lget in G. destruct (t <? 0); [discriminate|]. eapply nth_error_In; eauto.
Qed.
Lemma existsb_false_lget {A} (p : A -> bool) l : (forall t k, lget l t = Some k -> p k = false) -> existsb p l = false.
Proof.
  intros H. destruct (existsb p l) eqn:E; [|reflexivity]. apply existsb_exists in E. destruct E as (k & Hk & Ek).
  apply In_nth_error in Hk. destruct Hk as (n & Hn). rewrite (H (Z.of_nat n) k) in Ek; [discriminate|]. unfold lget.
  destruct (Z.ltb_spec (Z.of_nat n) 0); [lia|].
  now rewrite Nat2Z.id.
Qed.

Lemma lget_snoc {A} (l : list A) k t : lget (l ++ [k]) t = if t =? zlen l then Some k else lget l t.
Proof.
  rewrite lget_app. destruct (Z.eqb_spec t (zlen l)) as [->|N].
  - destruct (Z.ltb_spec (zlen l) (zlen l)); [lia|]. now rewrite Z.sub_diag.
  - destruct (Z.ltb_spec t (zlen l)); [reflexivity|]. rewrite (lget_none l) by lia. apply lget_none. cbn. lia.
Qed.

Section Inv.
Context (i : Z).

Definition nd (g : goal) (j : Z) : Prop := g = GDestroy -> j <> i.

(** What is known of a task. *)
Definition Tok (own : Z -> Z) (s : st) (k : task) : Prop :=
  match k with
  | TOpen g j => nd g j
  | TGet g j => nd g j /\ (j = i -> zm_get i (fs s) = None)
  | TReg g j l => nd g j /\ (j = i -> zm_get i (fs s) = None /\ zm_get i (forest s) = Some l)
  | THave g j o | TIn g j o => nd g j /\ own o = j /\ 0 <= o < zlen (objs s) /\ (j = i -> zm_get i (fs s) = Some o)
  | _ => True
  end.

(** The contents of the data set as its users see it. *)
Definition cur (s : st) : log :=
  match zm_get i (fs s) with
  | Some o => match lget (objs s) o with Some l => l | None => [] end
  | None => match zm_get i (forest s) with Some l => l | None => [] end
  end.

Definition holds_in (m : list (Z * log)) (w : Z) : Prop := exists l, zm_get i m = Some l /\ In w l.

Record Inv (own : Z -> Z) (s : st) (W : Z -> Prop) : Prop := {
  v_forest : zm_ok (forest s);
  v_fs : zm_ok (fs s);
  v_own : forall j o, zm_get j (fs s) = Some o -> own o = j /\ 0 <= o < zlen (objs s);
  v_reg : forall o, zm_get i (fs s) = Some o -> exists l, zm_get i (forest s) = Some l;
  v_tasks : forall t k, lget (tasks s) t = Some k -> Tok own s k;
  v_alone : forall t k t' k', lget (tasks s) t = Some k -> lget (tasks s) t' = Some k' -> opens i k = true -> opens i k' = true -> t = t';
  v_w : forall w, W w -> In w (cur s);
  v_disk : forall w, holds_in (disk s) w -> holds_in (forest s) w;
  v_cur : forall w, holds_in (forest s) w -> In w (cur s) }.

(** Only the tasks change. *)
Lemma Inv_tasks own s W d a t k tk : Inv own s W ->
  (forall t', lget tk t' = if t' =? t then Some k else lget (tasks s) t') ->
  Tok own s k -> (opens i k = true -> forall t' k', t' <> t -> lget (tasks s) t' = Some k' -> opens i k' = false) ->
  Inv own (mkst d a (fs s) (objs s) (forest s) (disk s) tk) W.
Proof.
  intros V HT TK AL. constructor; cbn [fs objs forest disk tasks]; try apply V.
  - intros t' k'. rewrite HT. destruct (Z.eqb_spec t' t) as [->|N]; [intros [= <-]; exact TK|]. intros G. exact (v_tasks _ _ _ V _ _ G).
  - intros t1 k1 t2 k2 G1 G2 O1 O2. rewrite HT in G1, G2. destruct (Z.eqb_spec t1 t) as [->|N1], (Z.eqb_spec t2 t) as [->|N2].
    + reflexivity.
    + injection G1 as <-. rewrite (AL O1 _ _ N2 G2) in O2. discriminate.
    + injection G2 as <-. rewrite (AL O2 _ _ N1 G1) in O1. discriminate.
    + eapply (v_alone _ _ _ V); eauto.
Qed.

Lemma set_get s t k0 k : lget (tasks s) t = Some k0 -> forall t', lget (lset (tasks s) t k) t' = if t' =? t then Some k else lget (tasks s) t'.
Proof. intros G t'. apply lget_lset. now apply lget_range in G. Qed.

Lemma Inv_set own s W t k0 k : Inv own s W -> lget (tasks s) t = Some k0 -> Tok own s k ->
  (opens i k = true -> opens i k0 = true \/ existsb (opens i) (tasks s) = false) -> Inv own (set_task s t k) W.
Proof.
  intros V G TK AL. apply (Inv_tasks own s W (dirty s) (alive s) t k); [exact V|now apply set_get with k0|exact TK|].
  intros O t' k' N G'. destruct (AL O) as [O0|EX].
  - destruct (opens i k') eqn:E; [|reflexivity]. exfalso. apply N. eapply (v_alone _ _ _ V); eauto.
  - apply (existsb_lget _ _ EX _ _ G').
Qed.

Lemma Inv_new own s W d k : Inv own s W -> Tok own s k -> opens i k = false -> Inv own (new_task s d k) W.
Proof.
  intros V TK O. apply (Inv_tasks own s W d (alive s) (zlen (tasks s)) k); [exact V|apply lget_snoc|exact TK|]. rewrite O. discriminate.
Qed.

Lemma Inv_weaken own s (W W' : Z -> Prop) : Inv own s W -> (forall w, W' w -> In w (cur s)) -> Inv own s W'.
Proof. intros V H. constructor; try apply V. exact H. Qed.

Lemma fresh_not f : zm_ok f -> forall j l, zm_get j f = Some l -> j < fresh_id f.
Proof.
  intros O j l G. apply zm_get_in in G. unfold fresh_id. unfold zm_ok in O.
  assert (X : forall f : list (Z * log), StronglySorted Z.lt (map fst f) -> forall p q, In p f -> forall r, rev f = q :: r -> fst p <= fst q).
  { clear. induction f as [|x f IH]; intros SS p q Hp r E; [destruct Hp|]. cbn [map] in SS. inversion SS as [|? ? SS' FA]; subst.
    cbn [rev] in E. destruct (rev f) as [|y r'] eqn:Er.
    - destruct f as [|z f']; [|cbn [rev] in Er; destruct (rev f'); discriminate]. cbn in E. injection E as <- _. destruct Hp as [->|[]]. lia.
    - cbn [app] in E. injection E as <- _. destruct Hp as [->|Hp].
      + assert (In y f) by (apply in_rev; rewrite Er; now left). rewrite Forall_forall in FA. apply Z.lt_le_incl, FA, in_map, H.
      + eapply IH; eauto. }
  destruct (rev f) as [|[k v] r] eqn:E.
  - exfalso. apply in_rev in G. rewrite E in G. destruct G.
  - pose proof (X f O (j, l) (k, v) G r E). cbn [fst] in *. lia.
Qed.

Lemma updated_get s j : zm_get j (updated s) =
  match zm_get j (forest s) with
  | None => None
  | Some l => Some (match zm_get j (fs s) with Some o => match lget (objs s) o with Some l' => l' | None => l end | None => l end)
  end.
Proof.
  unfold updated. induction (forest s) as [|[k l] f IH]; [reflexivity|]. cbn [map zm_get fst snd]. destruct (Z.eqb_spec j k) as [->|N]; [reflexivity|].
  exact IH.
Qed.

Lemma updated_ok s : zm_ok (forest s) -> zm_ok (updated s).
Proof. unfold zm_ok, updated. rewrite map_map. cbn [fst]. auto. Qed.

(** The contents the users see are what gets recorded. *)
Lemma updated_cur own s W : Inv own s W -> forall w, holds_in (updated s) w <-> (exists l, zm_get i (forest s) = Some l) /\ In w (cur s).
Proof.
  intros V w. unfold holds_in. rewrite updated_get. unfold cur. destruct (zm_get i (forest s)) as [l|] eqn:F.
  - destruct (zm_get i (fs s)) as [o|] eqn:E.
    + destruct (v_own _ _ _ V _ _ E) as [_ R]. destruct (lget_some (objs s) o R) as (l' & ->). split.
      * intros (l0 & [= <-] & Hw). eauto.
      * intros [_ Hw]. eauto.
    + split; [intros (l0 & [= <-] & Hw); eauto|intros [_ Hw]; eauto].
  - split; [intros (l & Y & _); discriminate|]. intros [(l & Y) _]. discriminate.
Qed.

(** The writes to [i] that a step completes. *)
Definition completes (s : st) (l : lab) (w : Z) : Prop :=
  exists x o, l = LStep w x /\ lget (tasks s) w = Some (TIn GWrite i o).

Ltac inj H := injection H as <- <-.

(** Recording the trees (in a sync that holds the lock, or fails). *)
Lemma Inv_updated own s W d a k t k0 : Inv own s W -> lget (tasks s) t = Some k0 -> Tok own s k -> opens i k = false ->
  Inv own (mkst d a (fs s) (objs s) (updated s) (disk s) (lset (tasks s) t k)) W.
Proof.
  intros V G TK OP.
  assert (V' : Inv own (mkst d a (fs s) (objs s) (forest s) (disk s) (lset (tasks s) t k)) W).
  { apply (Inv_tasks own s W d a t k); [exact V|now apply set_get with k0|exact TK|]. rewrite OP. discriminate. }
  assert (C : forall f, (forall o, zm_get i (fs s) = Some o -> exists l, lget (objs s) o = Some l) ->
     zm_get i f = zm_get i (updated s) -> cur (mkst d a (fs s) (objs s) f (disk s) (lset (tasks s) t k)) = cur s).
  { intros f RG E. unfold cur. cbn [fs objs forest]. rewrite E, updated_get. destruct (zm_get i (fs s)) as [o|]; [destruct (RG o eq_refl) as (l & ->); reflexivity|].
    destruct (zm_get i (forest s)); reflexivity. }
  assert (RG : forall o, zm_get i (fs s) = Some o -> exists l, lget (objs s) o = Some l).
  { intros o E. apply lget_some. apply (v_own _ _ _ V _ _ E). }
  constructor; cbn [fs objs forest disk tasks].
  - apply updated_ok, V.
  - apply V.
  - apply V.
  - intros o E. destruct (v_reg _ _ _ V _ E) as (l & F). rewrite updated_get, F. eauto.
  - intros t' k' G'. pose proof (v_tasks _ _ _ V' _ _ G') as T. destruct k'; cbn [Tok fs objs forest] in *; try exact T.
    destruct T as [T1 T2]. split; [exact T1|]. intros E. destruct (T2 E) as [T3 T4]. split; [exact T3|]. rewrite updated_get, T3, T4. reflexivity.
  - apply V'.
  - intros w Hw. rewrite C; auto. now apply V.
  - intros w Hw. cbn. apply (updated_cur _ _ _ V). pose proof (v_disk _ _ _ V _ Hw) as M. split; [destruct M as (l & F & _); eauto|exact (v_cur _ _ _ V _ M)].
  - intros w Hw. rewrite C; auto. now apply (updated_cur _ _ _ V) in Hw.
Qed.

Lemma step_inv own s W l s' es : Inv own s W -> opens_alone i s l -> (l <> LCall (CDestroy i)) -> step s l = Some (s', es) ->
  exists own', Inv own' s' (fun w => W w \/ completes s l w).
Proof.
  intros V AL ND E. destruct l as [c|t x]; cbn [step] in E.
  - exists own. assert (X : Inv own s' W).
    { unfold do_call in E. destruct c; try (injection E as <- _; apply Inv_new; [exact V| |reflexivity]; cbn [Tok nd]; unfold nd; try congruence; try exact I).
      - destruct (negb (alive s)); [injection E as <- _; apply Inv_new; [exact V|exact Logic.I|reflexivity]|].
        destruct (dirty s); injection E as <- _; apply Inv_new; try exact V; try exact Logic.I; reflexivity.
      - destruct (dirty s && alive s); injection E as <- _; apply Inv_new; try exact V; try exact Logic.I; reflexivity. }
    apply (Inv_weaken _ _ _ _ X). intros w [Hw|(x & o & Y & _)]; [now apply X|discriminate].
  - unfold do_step in E. cbn [opens_alone] in AL. destruct (lget (tasks s) t) as [k|] eqn:G; [|discriminate]. cbn [obind] in E. cbv zeta in E.
    pose proof (v_tasks _ _ _ V _ _ G) as T.
    assert (SAME : forall own', Inv own' s' W -> (forall o, k <> TIn GWrite i o) -> exists own', Inv own' s' (fun w => W w \/ completes s (LStep t x) w)).
    { intros own' X N. exists own'. apply (Inv_weaken _ _ _ _ X). intros w [Hw|(x' & o & [= <- <-] & Y)]; [now apply X|]. rewrite G in Y. injection Y as Y. now apply N in Y. }
    destruct k as [g j|g j|g j l|g j o|g j o| |bg|bg|bg|]; cbn [Tok] in T.
    + (* TOpen *)
      destruct (zm_get j (fs s)) as [o|] eqn:F; inj E; apply (SAME own); try (intros ?; discriminate).
      * apply Inv_set with (TOpen g j); auto; try discriminate. cbn [Tok]. split; [exact T|]. destruct (v_own _ _ _ V _ _ F) as [O R].
        split; [exact O|]. split; [exact R|]. intros ->. exact F.
      * apply Inv_set with (TOpen g j); auto; [cbn [Tok]; split; [exact T|intros ->; exact F]|].
        cbn [opens]. intros Y. right. apply AL. now apply Z.eqb_eq in Y.
    + (* TGet *)
      destruct (zm_get j (forest s)) as [l|] eqn:F; inj E; apply (SAME own); try (intros ?; discriminate).
      * apply Inv_set with (TGet g j); auto. cbn [Tok]. destruct T as [T1 T2]. split; [exact T1|]. intros ->. split; [now apply T2|exact F].
      * apply Inv_set with (TGet g j); auto; try exact Logic.I; try discriminate.
    + (* TReg *)
      injection E as <- <-. set (o := zlen (objs s)). set (own' := fun x => if x =? o then j else own x). apply (SAME own'); [|intros ?; discriminate].
      destruct T as [T1 T2]. pose proof (zlen_nonneg (objs s)) as NN.
      assert (LN : zlen (objs s ++ [l]) = o + 1) by (rewrite zlen_app; reflexivity).
      assert (OLD : forall q, 0 <= q < zlen (objs s) -> own' q = own q).
      { intros q Q. unfold own'. destruct (Z.eqb_spec q o); [unfold o in *; lia|reflexivity]. }
      set (fs' := if zm_mem j (fs s) then fs s else zm_set j o (fs s)).
      assert (FG : forall q, zm_get q fs' = if (q =? j) && negb (zm_mem j (fs s)) then Some o else zm_get q (fs s)).
      { intros q. unfold fs'. destruct (zm_mem j (fs s)); [now rewrite andb_false_r|]. rewrite zm_get_set by apply V. now rewrite andb_true_r. }
      assert (FI : zm_get i fs' = if i =? j then Some o else zm_get i (fs s)).
      { rewrite FG. destruct (Z.eqb_spec i j) as [->|]; [|reflexivity]. destruct (T2 eq_refl) as [T3 _].
        replace (zm_mem j (fs s)) with false; [reflexivity|]. symmetry. now apply zm_mem_false. }
      assert (FM : forall q, zm_get i (fs s) = Some q -> zm_get i fs' = Some q).
      { intros q Q. rewrite FI. destruct (Z.eqb_spec i j) as [->|]; [|exact Q]. destruct (T2 eq_refl). congruence. }
      change (Inv own' (mkst (dirty s) (alive s) fs' (objs s ++ [l]) (forest s) (disk s) (lset (tasks s) t (THave g j o))) W).
      constructor; cbn [fs objs forest disk tasks].
      * apply V.
      * unfold fs'. destruct (zm_mem j (fs s)); [apply V|apply zm_ok_set, V].
      * intros q p. rewrite FG, LN. destruct (Z.eqb_spec q j) as [->|N]; cbn [andb].
        -- destruct (negb _); [intros [= <-]; unfold own'; rewrite Z.eqb_refl; unfold o; split; [reflexivity|lia]|].
           intros Q. destruct (v_own _ _ _ V _ _ Q). split; [rewrite OLD by lia; lia|unfold o; lia].
        -- intros Q. destruct (v_own _ _ _ V _ _ Q). split; [rewrite OLD by lia; lia|unfold o; lia].
      * intros q. rewrite FI. destruct (Z.eqb_spec i j) as [->|]; [intros _; destruct (T2 eq_refl); eauto|apply V].
      * intros t' k'. rewrite (set_get _ _ _ _ G). destruct (Z.eqb_spec t' t) as [->|N].
        -- intros [= <-]. cbn [Tok fs objs]. split; [exact T1|]. split; [unfold own'; now rewrite Z.eqb_refl|]. rewrite LN. split; [unfold o; lia|].
           intros ->. rewrite FI. now rewrite Z.eqb_refl.
        -- intros G'. pose proof (v_tasks _ _ _ V _ _ G') as T'.
           assert (NO : j = i -> opens i k' = false).
           { intros ->. destruct (opens i k') eqn:OP; [|reflexivity]. exfalso. apply N. apply (v_alone _ _ _ V _ _ _ _ G' G OP). cbn [opens]. apply Z.eqb_refl. }
           destruct k' as [g' j'|g' j'|g' j' l'|g' j' o'|g' j' o'| | | | |]; cbn [Tok fs objs forest] in *; try exact T'.
           ++ destruct T' as [T3 T4]. split; [exact T3|]. intros ->. rewrite FI. destruct (Z.eqb_spec i j) as [<-|]; [|now apply T4].
              specialize (NO eq_refl). cbn [opens] in NO. rewrite Z.eqb_refl in NO. discriminate.
           ++ destruct T' as [T3 T4]. split; [exact T3|]. intros ->. rewrite FI. destruct (Z.eqb_spec i j) as [<-|]; [|now apply T4].
              specialize (NO eq_refl). cbn [opens] in NO. rewrite Z.eqb_refl in NO. discriminate.
           ++ destruct T' as (T3 & T4 & T5 & T6). rewrite LN. repeat split; auto; try (unfold o; lia). rewrite OLD; auto.
           ++ destruct T' as (T3 & T4 & T5 & T6). rewrite LN. repeat split; auto; try (unfold o; lia). rewrite OLD; auto.
      * intros t1 k1 t2 k2 G1 G2 O1 O2. rewrite (set_get _ _ _ _ G) in G1, G2.
        destruct (Z.eqb_spec t1 t) as [->|N1]; [injection G1 as <-; discriminate|]. destruct (Z.eqb_spec t2 t) as [->|N2]; [injection G2 as <-; discriminate|].
        eapply (v_alone _ _ _ V); eauto.
      * assert (C : forall w, In w (cur s) -> In w (cur (mkst (dirty s) (alive s) fs' (objs s ++ [l]) (forest s) (disk s) (lset (tasks s) t (THave g j o))))).
        { intros w. unfold cur. cbn [fs objs forest]. rewrite FI. destruct (Z.eqb_spec i j) as [->|].
          - destruct (T2 eq_refl) as [T3 T4]. rewrite T3, T4. rewrite lget_snoc. unfold o. now rewrite Z.eqb_refl.
          - destruct (zm_get i (fs s)) as [q|] eqn:Q; [|auto]. destruct (v_own _ _ _ V _ _ Q) as [_ R]. rewrite lget_snoc.
            destruct (Z.eqb_spec q (zlen (objs s))); [lia|auto]. }
        intros w Hw. apply C, V, Hw.
      * apply V.
      * intros w (l0 & F & Hw). cbn [forest] in F. unfold cur. cbn [fs objs forest]. rewrite FI. destruct (Z.eqb_spec i j) as [->|].
        -- destruct (T2 eq_refl) as [T3 T4]. rewrite lget_snoc. unfold o. rewrite Z.eqb_refl. congruence.
        -- pose proof (v_cur _ _ _ V w ltac:(exists l0; auto)) as C. unfold cur in C. destruct (zm_get i (fs s)) as [q|] eqn:Q; [|auto].
           destruct (v_own _ _ _ V _ _ Q) as [_ R]. rewrite lget_snoc. destruct (Z.eqb_spec q (zlen (objs s))); [lia|auto].
    + (* THave *)
      destruct g; [destruct (lget (objs s) o) as [l|]; [|discriminate]; cbn [obind] in E; inj E; apply (SAME own); [|intros ?; discriminate];
        apply Inv_set with (THave GRead j o); auto; try exact Logic.I; try discriminate| | |];
      (destruct (wlocked s); [discriminate|]; inj E; apply (SAME own); [|intros ?; discriminate]; eapply Inv_set; eauto; discriminate).
    + (* TIn *)
      destruct T as (T1 & T2 & T3 & T4). destruct (lget_some (objs s) o T3) as (l & L).
      assert (WR : forall r, g <> GDestroy -> s' = mkst (dirty s) (alive s) (fs s) (lset (objs s) o (l ++ [t])) (forest s) (disk s) (lset (tasks s) t TDone) -> es = [EvRet t r] ->
        Inv own s' (fun w => W w \/ completes s (LStep t x) w)).
      { intros r NG -> _.
        assert (LG : forall q, lget (lset (objs s) o (l ++ [t])) q = if q =? o then Some (l ++ [t]) else lget (objs s) q) by (intros q; now apply lget_lset).
        assert (C : forall w, In w (cur s) -> In w (cur (mkst (dirty s) (alive s) (fs s) (lset (objs s) o (l ++ [t])) (forest s) (disk s) (lset (tasks s) t TDone)))).
        { intros w. unfold cur. cbn [fs objs forest]. destruct (zm_get i (fs s)) as [q|]; [|auto]. rewrite LG. destruct (Z.eqb_spec q o) as [->|]; [|auto].
          rewrite L. intros Hw. apply in_or_app. now left. }
        constructor; cbn [fs objs forest disk tasks]; try apply V.
        - intros j' o' Q. rewrite lset_len. now apply V.
        - intros t' k'. rewrite (set_get _ _ _ _ G). destruct (Z.eqb_spec t' t) as [->|N]; [intros [= <-]; exact Logic.I|]. intros G'.
          pose proof (v_tasks _ _ _ V _ _ G') as T'. destruct k'; cbn [Tok fs objs forest] in *; try rewrite lset_len; exact T'.
        - intros t1 k1 t2 k2 G1 G2 O1 O2. rewrite (set_get _ _ _ _ G) in G1, G2.
          destruct (Z.eqb_spec t1 t) as [->|N1]; [injection G1 as <-; discriminate|]. destruct (Z.eqb_spec t2 t) as [->|N2]; [injection G2 as <-; discriminate|].
          eapply (v_alone _ _ _ V); eauto.
        - intros w [Hw|(x' & o' & [= <- <-] & Y)]; [apply C, V, Hw|]. rewrite G in Y. injection Y as -> -> ->.
          unfold cur. cbn [fs objs]. rewrite (T4 eq_refl), LG, Z.eqb_refl. apply in_or_app. right. now left.
        - intros w Hw. apply C, (v_cur _ _ _ V), Hw. }
      destruct g.
      * rewrite L in E. cbn [obind] in E. inj E. exists own. eapply WR; try reflexivity; discriminate.
      * rewrite L in E. cbn [obind] in E. inj E. exists own. eapply WR; try reflexivity; discriminate.
      * rewrite L in E. cbn [obind] in E. inj E. exists own. eapply WR; try reflexivity; discriminate.
      * assert (NI : i <> j) by (intros ->; now apply (T1 eq_refl)).
        assert (FF : zm_get i (zm_del j (forest s)) = zm_get i (forest s)).
        { rewrite zm_get_del by apply V. destruct (Z.eqb_spec i j); [contradiction|reflexivity]. }
        destruct (zm_get j (fs s)) as [q|] eqn:Q; inj E; apply (SAME own); try (intros ?; discriminate).
        -- assert (SF : zm_get i (zm_del j (fs s)) = zm_get i (fs s)).
           { rewrite zm_get_del by apply V. destruct (Z.eqb_spec i j); [contradiction|reflexivity]. }
           destruct (v_own _ _ _ V _ _ Q) as [OQ RQ].
           assert (C : cur (mkst (dirty s) (alive s) (zm_del j (fs s)) (lset (objs s) q []) (zm_del j (forest s)) (disk s) (lset (tasks s) t TDone)) = cur s).
           { unfold cur. cbn [fs objs forest]. rewrite SF, FF. destruct (zm_get i (fs s)) as [p|] eqn:P; [|reflexivity].
             destruct (v_own _ _ _ V _ _ P) as [OP RP]. rewrite lget_lset by exact RQ. destruct (Z.eqb_spec p q) as [->|]; [congruence|reflexivity]. }
           constructor; cbn [fs objs forest disk tasks].
           ++ apply zm_ok_del, V.
           ++ apply zm_ok_del, V.
           ++ intros j' o'. rewrite zm_get_del by apply V. destruct (j' =? j); [discriminate|]. rewrite lset_len. apply V.
           ++ rewrite SF, FF. apply V.
           ++ intros t' k'. rewrite (set_get _ _ _ _ G). destruct (Z.eqb_spec t' t) as [->|N]; [intros [= <-]; exact Logic.I|]. intros G'.
              pose proof (v_tasks _ _ _ V _ _ G') as T'. destruct k'; cbn [Tok fs objs forest] in *; try rewrite lset_len; rewrite ?SF, ?FF; exact T'.
           ++ intros t1 k1 t2 k2 G1 G2 O1 O2. rewrite (set_get _ _ _ _ G) in G1, G2.
              destruct (Z.eqb_spec t1 t) as [->|N1]; [injection G1 as <-; discriminate|]. destruct (Z.eqb_spec t2 t) as [->|N2]; [injection G2 as <-; discriminate|].
              eapply (v_alone _ _ _ V); eauto.
           ++ rewrite C. apply V.
           ++ intros w Hw. unfold holds_in. cbn [forest]. rewrite FF. now apply V.
           ++ intros w. unfold holds_in. cbn [forest]. rewrite FF, C. apply V.
        -- assert (C : cur (mkst (dirty s) (alive s) (fs s) (objs s) (zm_del j (forest s)) (disk s) (lset (tasks s) t TDone)) = cur s).
           { unfold cur. cbn [fs objs forest]. now rewrite FF. }
           constructor; cbn [fs objs forest disk tasks]; try apply V.
           ++ apply zm_ok_del, V.
           ++ rewrite FF. apply V.
           ++ intros t' k'. rewrite (set_get _ _ _ _ G). destruct (Z.eqb_spec t' t) as [->|N]; [intros [= <-]; exact Logic.I|]. intros G'.
              pose proof (v_tasks _ _ _ V _ _ G') as T'. destruct k'; cbn [Tok fs objs forest] in *; rewrite ?FF; exact T'.
           ++ intros t1 k1 t2 k2 G1 G2 O1 O2. rewrite (set_get _ _ _ _ G) in G1, G2.
              destruct (Z.eqb_spec t1 t) as [->|N1]; [injection G1 as <-; discriminate|]. destruct (Z.eqb_spec t2 t) as [->|N2]; [injection G2 as <-; discriminate|].
              eapply (v_alone _ _ _ V); eauto.
           ++ rewrite C. apply V.
           ++ intros w Hw. unfold holds_in. cbn [forest]. rewrite FF. now apply V.
           ++ intros w. unfold holds_in. cbn [forest]. rewrite FF, C. apply V.
    + (* TNew *)
      destruct (wlocked s); [discriminate|]. inj E. apply (SAME own); [|intros ?; discriminate]. set (n := fresh_id (forest s)).
      assert (FR : zm_get n (forest s) = None).
      { destruct (zm_get n (forest s)) as [l|] eqn:F; [|reflexivity]. apply fresh_not in F; [unfold n in F; lia|apply V]. }
      assert (FG : forall l, zm_get i (forest s) = Some l -> zm_get i (zm_set n [] (forest s)) = Some l).
      { intros l F. rewrite zm_get_set by apply V. destruct (Z.eqb_spec i n) as [->|]; [congruence|exact F]. }
      assert (FN : forall w l, zm_get i (zm_set n [] (forest s)) = Some l -> In w l -> zm_get i (forest s) = Some l).
      { intros w l. rewrite zm_get_set by apply V. destruct (Z.eqb_spec i n) as [->|]; [intros [= <-] []|auto]. }
      assert (C : forall w, In w (cur s) -> In w (cur (mkst true (alive s) (fs s) (objs s) (zm_set n [] (forest s)) (disk s) (lset (tasks s) t (TOpen GInit n))))).
      { intros w. unfold cur. cbn [fs objs forest]. destruct (zm_get i (fs s)); [auto|]. destruct (zm_get i (forest s)) as [l|] eqn:F; [|intros []].
        specialize (FG l eq_refl). unfold log in *. rewrite FG. auto. }
      change (Inv own (mkst true (alive s) (fs s) (objs s) (zm_set n [] (forest s)) (disk s) (lset (tasks s) t (TOpen GInit n))) W).
      constructor; cbn [fs objs forest disk tasks].
      * apply zm_ok_set, V.
      * apply V.
      * apply V.
      * intros o F. destruct (v_reg _ _ _ V _ F) as (l & L). eauto.
      * intros t' k'. rewrite (set_get _ _ _ _ G). destruct (Z.eqb_spec t' t) as [->|N]; [intros [= <-]; cbn [Tok]; unfold nd; discriminate|]. intros G'.
        pose proof (v_tasks _ _ _ V _ _ G') as T'. destruct k'; cbn [Tok fs objs forest] in *; try exact T'.
        destruct T' as [A B]. split; [exact A|]. intros Y. destruct (B Y). split; auto.
      * intros t1 k1 t2 k2 G1 G2 O1 O2. rewrite (set_get _ _ _ _ G) in G1, G2.
        destruct (Z.eqb_spec t1 t) as [->|N1]; [injection G1 as <-; discriminate|]. destruct (Z.eqb_spec t2 t) as [->|N2]; [injection G2 as <-; discriminate|].
        eapply (v_alone _ _ _ V); eauto.
      * intros w Hw. apply C, V, Hw.
      * intros w Hw. destruct (v_disk _ _ _ V _ Hw) as (l & F & Hl). exists l. split; [now apply FG|exact Hl].
      * intros w (l & F & Hl). apply C, (v_cur _ _ _ V). exists l. split; [eapply FN; eauto|exact Hl].
    + (* TSync *)
      destruct (_ || _); [discriminate|]. inj E. apply (SAME own); [|intros ?; discriminate]. eapply Inv_set; eauto; try exact Logic.I; try discriminate.
    + (* TSLock *)
      assert (DONE : forall d a, Inv own (mkst d a (fs s) (objs s) (forest s) (disk s) (lset (tasks s) t TDone)) W).
      { intros d a. apply (Inv_tasks own s W d a t TDone); [exact V|now apply set_get with (TSLock bg)|exact Logic.I|discriminate]. }
      destruct x; [destruct (all_known s)| |]; inj E; apply (SAME own); try (intros ?; discriminate).
      * eapply Inv_updated; eauto; exact Logic.I.
      * eapply Inv_updated; eauto; exact Logic.I.
      * apply DONE.
      * apply DONE.
    + (* TSFlushed *)
      assert (DONE : forall d a, Inv own (mkst d a (fs s) (objs s) (forest s) (disk s) (lset (tasks s) t TDone)) W).
      { intros d a. apply (Inv_tasks own s W d a t TDone); [exact V|now apply set_get with (TSFlushed bg)|exact Logic.I|discriminate]. }
      assert (DONE2 : forall d a, Inv own (mkst d a (fs s) (objs s) (forest s) (forest s) (lset (tasks s) t TDone)) W).
      { intros d a. constructor; try apply (DONE d a). auto. }
      destruct x; inj E; apply (SAME own); try (intros ?; discriminate); [apply DONE2|apply DONE|apply DONE2].
    + discriminate.
Qed.

(** What is recorded, in the forest and on disk, stays. *)
Lemma step_mono own s W l s' es : Inv own s W -> step s l = Some (s', es) ->
  forall w, (holds_in (forest s) w -> holds_in (forest s') w) /\ (holds_in (disk s) w -> holds_in (disk s') w).
Proof.
  intros V E w. destruct l as [c|t x]; cbn [step] in E.
  - assert (X : forest s' = forest s /\ disk s' = disk s).
    { unfold do_call in E. destruct c; try (injection E as <- _; split; reflexivity).
      - destruct (negb (alive s)); [injection E as <- _; split; reflexivity|]. destruct (dirty s); injection E as <- _; split; reflexivity.
      - destruct (dirty s && alive s); injection E as <- _; split; reflexivity. }
    destruct X as [-> ->]. auto.
  - unfold do_step in E. destruct (lget (tasks s) t) as [k|] eqn:G; [|discriminate]. cbn [obind] in E. cbv zeta in E.
    pose proof (v_tasks _ _ _ V _ _ G) as T.
    assert (UP : holds_in (forest s) w -> holds_in (updated s) w).
    { intros Hw. apply (updated_cur _ _ _ V). split; [destruct Hw as (l & F & _); eauto|now apply (v_cur _ _ _ V)]. }
    assert (DF : holds_in (disk s) w -> holds_in (forest s) w) by apply V.
    destruct k as [g j|g j|g j l|g j o|g j o| |bg|bg|bg|]; cbn [Tok] in T.
    + destruct (zm_get j (fs s)); inj E; cbn; auto.
    + destruct (zm_get j (forest s)); inj E; cbn; auto.
    + inj E; cbn; auto.
    + destruct g; [destruct (lget (objs s) o); [|discriminate]; cbn [obind] in E; inj E; cbn; auto| | |];
      (destruct (wlocked s); [discriminate|]; inj E; cbn; auto).
    + destruct g; try (destruct (lget (objs s) o); [|discriminate]; cbn [obind] in E; inj E; cbn; auto).
      destruct T as (T1 & _). assert (NI : i <> j) by (intros ->; now apply (T1 eq_refl)).
      assert (FF : holds_in (forest s) w -> holds_in (zm_del j (forest s)) w).
      { intros (l & F & Hw). exists l. split; [|exact Hw]. rewrite zm_get_del by apply V. destruct (Z.eqb_spec i j); [contradiction|exact F]. }
      destruct (zm_get j (fs s)); inj E; cbn [forest disk]; auto.
    + destruct (wlocked s); [discriminate|]. inj E. cbn [forest disk]. split; [|auto]. intros (l & F & Hw). exists l. split; [|exact Hw].
      rewrite zm_get_set by apply V. destruct (Z.eqb_spec i (fresh_id (forest s))) as [Y|]; [|exact F]. apply fresh_not in F; [lia|apply V].
    + destruct (_ || _); [discriminate|]. inj E. cbn; auto.
    + destruct x; [destruct (all_known s)| |]; inj E; cbn [forest disk]; auto.
    + destruct x; inj E; cbn [forest disk]; auto.
    + discriminate.
Qed.

End Inv.

(** ** Tasks and the trace *)

(** The task fits the call. *)
Definition fits (c : call) (k : task) : Prop :=
  match k with
  | TDone => True
  | TOpen g j | TGet g j | TReg g j _ | THave g j _ | TIn g j _ =>
    match c, g with
    | CRead j', GRead => j = j'
    | CWrite j', GWrite => j = j'
    | CDestroy j', GDestroy => j = j'
    | CCreate, GInit => True
    | _, _ => False
    end
  | TNew => c = CCreate
  | TSync b | TSLock b | TSFlushed b => c = if b then CBg else CSync
  end.

Record M (tr : list ev) (s : st) : Prop := {
  m_fits : forall t c, In (EvCall t c) tr -> exists k, lget (tasks s) t = Some k /\ fits c k;
  m_call : forall t k, lget (tasks s) t = Some k -> exists c, In (EvCall t c) tr;
  m_uniq : forall t c c', In (EvCall t c) tr -> In (EvCall t c') tr -> c = c';
  m_ret : forall t r, In (EvRet t r) tr -> lget (tasks s) t = Some TDone }.

Ltac inj2 H := injection H as <- <-.

(** One step of a task, seen from outside. *)
Lemma step_shape s t x s' es : do_step s t x = Some (s', es) -> exists k k',
  lget (tasks s) t = Some k /\ k <> TDone /\ tasks s' = lset (tasks s) t k' /\ (forall c, fits c k -> fits c k') /\
  ((es = [] /\ k' <> TDone) \/ exists r, es = [EvRet t r] /\ k' = TDone).
Proof.
  intros E. unfold do_step in E. destruct (lget (tasks s) t) as [k|] eqn:G; [|discriminate]. cbn [obind] in E. cbv zeta in E.
  exists k. 
  destruct k as [g j|g j|g j l|g j o|g j o| |bg|bg|bg|].
  - destruct (zm_get j (fs s)); inj2 E; eexists; (split; [reflexivity|]); (split; [discriminate|]); (split; [reflexivity|]); (split; [auto|left; split; [reflexivity|discriminate]]).
  - destruct (zm_get j (forest s)); inj2 E; eexists; (split; [reflexivity|]); (split; [discriminate|]); (split; [reflexivity|]).
    + split; [auto|left; split; [reflexivity|discriminate]].
    + split; [intros; exact Logic.I|right; eexists; split; reflexivity].
  - inj2 E; eexists; (split; [reflexivity|]); (split; [discriminate|]); (split; [reflexivity|]); (split; [auto|left; split; [reflexivity|discriminate]]).
  - destruct g; [destruct (lget (objs s) o); [|discriminate]; cbn [obind] in E; inj2 E; eexists; (split; [reflexivity|]); (split; [discriminate|]); (split; [reflexivity|]); split; [intros; exact Logic.I|right; eexists; split; reflexivity]| | |];
    (destruct (wlocked s); [discriminate|]; inj2 E; eexists; (split; [reflexivity|]); (split; [discriminate|]); (split; [reflexivity|]); (split; [auto|left; split; [reflexivity|discriminate]])).
  - destruct g; [| | |destruct (zm_get j (fs s)); inj2 E; eexists; (split; [reflexivity|]); (split; [discriminate|]); (split; [reflexivity|]); (split; [intros; exact Logic.I|right; eexists; split; reflexivity])];
    (destruct (lget (objs s) o); [|discriminate]; cbn [obind] in E; inj2 E; eexists; (split; [reflexivity|]); (split; [discriminate|]); (split; [reflexivity|]); split; [intros; exact Logic.I|right; eexists; split; reflexivity]).
  - destruct (wlocked s); [discriminate|]. inj2 E; eexists; (split; [reflexivity|]); (split; [discriminate|]); (split; [reflexivity|]).
    split; [intros c ->; exact Logic.I|left; split; [reflexivity|discriminate]].
  - destruct (_ || _); [discriminate|]. inj2 E; eexists; (split; [reflexivity|]); (split; [discriminate|]); (split; [reflexivity|]); (split; [auto|left; split; [reflexivity|discriminate]]).
  - destruct x; [destruct (all_known s)| |]; inj2 E; eexists; (split; [reflexivity|]); (split; [discriminate|]); (split; [reflexivity|]); 
      try (split; [auto|left; split; [reflexivity|discriminate]]); (split; [intros; exact Logic.I|right; eexists; split; reflexivity]).
  - destruct x; inj2 E; eexists; (split; [reflexivity|]); (split; [discriminate|]); (split; [reflexivity|]); (split; [intros; exact Logic.I|right; eexists; split; reflexivity]).
  - discriminate.
Qed.

Lemma call_shape s c s' es : do_call s c = (s', es) -> exists k,
  tasks s' = tasks s ++ [k] /\ fits c k /\
  ((es = [EvCall (zlen (tasks s)) c] /\ k <> TDone) \/
   exists r, es = [EvCall (zlen (tasks s)) c; EvRet (zlen (tasks s)) r] /\ k = TDone /\ (c = CSync \/ c = CBg)).
Proof.
  intros E. unfold do_call in E. destruct c.
  1-4: injection E as <- <-; eexists; split; [reflexivity|]; split; [reflexivity|left; split; [reflexivity|discriminate]].
  - destruct (negb (alive s)); [|destruct (dirty s)]; injection E as <- <-; eexists; (split; [reflexivity|]); (split; [now auto|]);
      try (left; split; [reflexivity|discriminate]); right; eexists; (split; [reflexivity|]); auto.
  - destruct (dirty s && alive s); injection E as <- <-; eexists; (split; [reflexivity|]); (split; [now auto|]);
      try (left; split; [reflexivity|discriminate]); right; eexists; (split; [reflexivity|]); auto.
Qed.

Lemma M_step tr s l s' es : M tr s -> step s l = Some (s', es) -> M (tr ++ es) s'.
Proof.
  intros H E. destruct l as [c|t x]; cbn [step] in E.
  - injection E as E. destruct (do_call s c) as [s1 es1] eqn:EC. injection E as -> ->. destruct (call_shape _ _ _ _ EC) as (k & TS & FK & SH).
    assert (OLD : forall t c, In (EvCall t c) tr -> t <> zlen (tasks s)).
    { intros t c' Hc. destruct (m_fits _ _ H _ _ Hc) as (k' & G & _). apply lget_range in G. lia. }
    assert (CE : forall t c', In (EvCall t c') es -> t = zlen (tasks s) /\ c' = c).
    { destruct SH as [[-> _]|(r & -> & _)]; intros t c' Hc; cbn [In] in Hc; intuition congruence. }
    constructor.
    + intros t c' Hc. rewrite TS. setoid_rewrite lget_snoc. apply in_app_or in Hc. destruct Hc as [Hc|Hc].
      * pose proof (OLD _ _ Hc). destruct (Z.eqb_spec t (zlen (tasks s))); [contradiction|]. now apply (m_fits _ _ H).
      * apply CE in Hc. destruct Hc as [-> ->]. rewrite Z.eqb_refl. eauto.
    + intros t k'. rewrite TS, lget_snoc. destruct (Z.eqb_spec t (zlen (tasks s))) as [->|].
      * intros _. exists c. apply in_or_app. right. destruct SH as [[-> _]|(r & -> & _)]; now left.
      * intros G. destruct (m_call _ _ H _ _ G) as (c' & Hc). exists c'. apply in_or_app. now left.
    + intros t c1 c2 H1 H2. apply in_app_or in H1, H2. destruct H1 as [H1|H1], H2 as [H2|H2].
      * eapply (m_uniq _ _ H); eauto.
      * exfalso. apply CE in H2. destruct H2 as [-> _]. now apply (OLD _ _ H1).
      * exfalso. apply CE in H1. destruct H1 as [-> _]. now apply (OLD _ _ H2).
      * apply CE in H1, H2. destruct H1 as [_ ->], H2 as [_ ->]. reflexivity.
    + intros t r Hr. rewrite TS, lget_snoc. apply in_app_or in Hr. destruct Hr as [Hr|Hr].
      * apply (m_ret _ _ H) in Hr. pose proof (lget_range _ _ _ Hr). destruct (Z.eqb_spec t (zlen (tasks s))); [lia|exact Hr].
      * destruct SH as [[-> _]|(r' & -> & -> & _)]; cbn [In] in Hr; [intuition congruence|]. destruct Hr as [Hr|[Hr|[]]]; [discriminate|].
        injection Hr as <- _. now rewrite Z.eqb_refl.
  - destruct (step_shape _ _ _ _ _ E) as (k & k' & G & ND & TS & FK & SH).
    assert (LG : forall t', lget (tasks s') t' = if t' =? t then Some k' else lget (tasks s) t') by (intros t'; rewrite TS; now apply set_get with k).
    assert (CE : forall t c', ~ In (EvCall t c') es).
    { destruct SH as [[-> _]|(r & -> & _)]; intros t' c' Hc; cbn [In] in Hc; intuition congruence. }
    constructor.
    + intros t' c Hc. rewrite LG. apply in_app_or in Hc. destruct Hc as [Hc|Hc]; [|now apply CE in Hc].
      destruct (m_fits _ _ H _ _ Hc) as (k0 & G0 & F0). destruct (Z.eqb_spec t' t) as [->|]; [|eauto]. exists k'. split; [reflexivity|]. apply FK. congruence.
    + intros t' k0. rewrite LG. intros G0. destruct (Z.eqb_spec t' t) as [->|].
      * destruct (m_call _ _ H _ _ G) as (c & Hc). exists c. apply in_or_app. now left.
      * destruct (m_call _ _ H _ _ G0) as (c & Hc). exists c. apply in_or_app. now left.
    + intros t' c1 c2 H1 H2. apply in_app_or in H1, H2. destruct H1 as [H1|H1]; [|now apply CE in H1]. destruct H2 as [H2|H2]; [|now apply CE in H2].
      eapply (m_uniq _ _ H); eauto.
    + intros t' r Hr. rewrite LG. apply in_app_or in Hr. destruct Hr as [Hr|Hr].
      * apply (m_ret _ _ H) in Hr. destruct (Z.eqb_spec t' t) as [->|]; [congruence|exact Hr].
      * destruct SH as [[-> _]|(r' & -> & ->)]; [destruct Hr|]. destruct Hr as [Hr|[]]. injection Hr as <- _. now rewrite Z.eqb_refl.
Qed.

Lemma exec_app P s0 s1 tr1 : exec P s0 tr1 s1 -> forall s2 tr2, exec P s1 tr2 s2 -> exec P s0 (tr1 ++ tr2) s2.
Proof.
  intros X s2 tr2 Y. induction Y; [now rewrite app_nil_r|]. rewrite app_assoc. econstructor; eauto.
Qed.

Lemma exec_mono (P Q : st -> lab -> Prop) s0 tr s : (forall s l, P s l -> Q s l) -> exec P s0 tr s -> exec Q s0 tr s.
Proof. intros H X. induction X; [constructor|]. econstructor; eauto. Qed.

Lemma M_import f : M [] (import f).
Proof.
  constructor; try (intros; contradiction). intros t k G. cbn in G. unfold lget in G. destruct (t <? 0); [discriminate|]. now destruct (Z.to_nat t).
Qed.

Lemma Inv_import i f : zm_ok f -> Inv i (fun _ => 0) (import f) (fun _ => False).
Proof.
  intros O. constructor; cbn [import fs forest disk tasks objs]; try (intros; discriminate); auto; try constructor.
  - intros t k G. unfold lget in G. destruct (t <? 0); [discriminate|]. now destruct (Z.to_nat t).
  - intros t k t' k' G. unfold lget in G. destruct (t <? 0); [discriminate|]. now destruct (Z.to_nat t).
  - intros w [].
  - intros w (l & F & Hw). unfold cur. cbn [import fs forest]. cbn [zm_get]. now rewrite F.
Qed.
