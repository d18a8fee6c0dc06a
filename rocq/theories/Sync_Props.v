(** C26 and C70: syncing, and opening data sets. *)
From Verif Require Import Common FSM_Model ZMap Sync_Model Sync_Proofs.

(** ** What is promised *)

(** Task [w] wrote to data set [i], and the write completed. *)
Definition wrote (tr : list ev) (i w : Z) : Prop := In (EvCall w (CWrite i)) tr /\ In (EvRet w ROk) tr.

(** The write is there after a crash now. *)
Definition on_disk (s : st) (i w : Z) : Prop := exists l, In (i, l) (disk s) /\ In w l.

(** Nobody asks to destroy [i]. *)
Definition keeps (i : Z) (s : st) (l : lab) : Prop := l <> LCall (CDestroy i).

Definition is_sync (k : task) : bool := match k with TSync _ | TSLock _ | TSFlushed _ => true | _ => false end.
(** An operation that changes something is under way, without a transaction yet. *)
Definition waits (k : task) : bool :=
  match k with
  | TOpen g _ | TGet g _ | TReg g _ _ | THave g _ _ => match g with GRead => false | _ => true end
  | TNew => true
  | _ => false
  end.

(** Syncs do not overlap, and when a sync starts its work, every operation that
    was begun before the sync was asked for has a transaction (or is done). *)
Definition orderly (s : st) (l : lab) : Prop :=
  match l with
  | LCall CSync | LCall CBg => existsb is_sync (tasks s) = false
  | LCall _ => True
  | LStep t _ => match lget (tasks s) t with
                 | Some (TSync _) => forall t' k, t' < t -> lget (tasks s) t' = Some k -> waits k = false
                 | _ => True
                 end
  end.

(** No sync has failed. *)
Definition no_sync_failed (tr : list ev) : Prop :=
  forall y, In (EvCall y CSync) tr \/ In (EvCall y CBg) tr -> ~ In (EvRet y RErr) tr.

Definition sorted_ids (f : list (Z * log)) : Prop := zm_ok f.

Section Run.
Context (i : Z).

Definition P0 (s : st) (l : lab) : Prop := opens_alone i s l /\ keeps i s l.

Lemma wrote_step tr s l s' es own : M tr s -> Inv i own s (wrote tr i) -> P0 s l -> step s l = Some (s', es) ->
  exists own', Inv i own' s' (wrote (tr ++ es) i).
Proof.
  intros HM V [AL KE] E. destruct (step_inv i own s _ l s' es V AL KE E) as (own' & V'). exists own'.
  apply (Inv_weaken i _ _ _ _ V'). intros w [HC HR]. apply in_app_or in HC, HR. destruct HR as [HR|HR].
  - apply (v_w _ _ _ _ V'). left. split; [|exact HR]. destruct HC as [HC|HC]; [exact HC|]. exfalso.
    apply (m_ret _ _ HM) in HR. apply lget_range in HR. destruct l as [c|t x]; cbn [step] in E.
    + injection E as E. destruct (call_shape _ _ _ _ E) as (k & _ & _ & [[-> _]|(r & -> & _)]); cbn [In] in HC; intuition (try discriminate);
        match goal with Y : EvCall _ _ = EvCall _ _ |- _ => injection Y as <- _; lia end.
    + destruct (step_shape _ _ _ _ _ E) as (k & k' & _ & _ & _ & _ & [[-> _]|(r & -> & _)]); cbn [In] in HC; intuition discriminate.
  - destruct l as [c|t x]; cbn [step] in E.
    + exfalso. injection E as E. destruct (call_shape _ _ _ _ E) as (k & _ & _ & [[-> _]|(r & -> & _ & CC)]); cbn [In] in HR; [intuition discriminate|].
      destruct HR as [HR|[HR|[]]]; [discriminate|]. injection HR as <- _. destruct HC as [HC|HC].
      * destruct (m_fits _ _ HM _ _ HC) as (k' & G & _). apply lget_range in G. lia.
      * cbn [In] in HC. destruct HC as [HC|[HC|[]]]; [|discriminate]. injection HC as ->. destruct CC; discriminate.
    + pose proof E as E0. destruct (step_shape _ _ _ _ _ E) as (k & k' & G & _ & _ & _ & [[-> _]|(r & -> & _)]); [destruct HR|].
      destruct HR as [HR|[]]. injection HR as <- ->. destruct HC as [HC|[HC|[]]]; [|discriminate].
      destruct (m_fits _ _ HM _ _ HC) as (k0 & G0 & FT). rewrite G in G0. injection G0 as <-.
      apply (v_w _ _ _ _ V'). right. cbn [step do_step] in E0. unfold do_step in E0. rewrite G in E0. cbn [obind] in E0.
      destruct k as [g j|g j|g j l|g j o|g j o| |bg|bg|bg|]; cbn [fits] in FT.
      * destruct (zm_get j (fs s)); discriminate.
      * destruct (zm_get j (forest s)); discriminate.
      * discriminate.
      * destruct g; try contradiction; destruct (wlocked s); discriminate.
      * destruct g; try contradiction. subst j. exists x, o. auto.
      * discriminate.
      * destruct bg; discriminate.
      * destruct bg; discriminate.
      * destruct bg; discriminate.
      * discriminate.
Qed.

Lemma run_inv (P : st -> lab -> Prop) s0 tr0 own0 : (forall s l, P s l -> P0 s l) -> M tr0 s0 -> Inv i own0 s0 (wrote tr0 i) ->
  forall tr s, exec P s0 tr s -> M (tr0 ++ tr) s /\ exists own, Inv i own s (wrote (tr0 ++ tr) i).
Proof.
  intros HP HM V tr s X. induction X as [|tr s l s' es X IH PL E].
  - rewrite app_nil_r. eauto.
  - destruct IH as (HM1 & own & V1). rewrite app_assoc. split; [eapply M_step; eauto|]. eapply wrote_step; eauto.
Qed.

Lemma import_inv f : sorted_ids f -> M [] (import f) /\ Inv i (fun _ => 0) (import f) (wrote [] i).
Proof.
  intros O. split; [apply M_import|]. apply (Inv_weaken i _ _ _ _ (Inv_import i f O)). intros w [[] _].
Qed.

Lemma disk_in own s W w : Inv i own s W -> holds_in i (disk s) w -> on_disk s i w.
Proof. intros _ (l & G & Hw). exists l. split; [now apply zm_get_in|exact Hw]. Qed.

(** What was recorded stays. *)
Lemma mono (P : st -> lab -> Prop) s0 tr0 own0 : (forall s l, P s l -> P0 s l) -> M tr0 s0 -> Inv i own0 s0 (wrote tr0 i) ->
  forall tr s, exec P s0 tr s -> forall w, holds_in i (disk s0) w -> holds_in i (disk s) w.
Proof.
  intros HP HM V tr s X. induction X as [|tr s l s' es X IH PL E]; [auto|]. intros w Hw.
  destruct (run_inv P s0 tr0 own0 HP HM V _ _ X) as (_ & own & V1). destruct (step_mono i own s _ l s' es V1 E w) as [_ D]. apply D, IH, Hw.
Qed.

(** The progress of a sync that runs. *)
Lemma sync_phases (P : st -> lab -> Prop) s0 tr0 own0 y : (forall s l, P s l -> P0 s l) -> M tr0 s0 -> Inv i own0 s0 (wrote tr0 i) ->
  lget (tasks s0) y = Some (TSync false) ->
  forall tr s, exec P s0 tr s ->
    match lget (tasks s) y with
    | Some (TSync _) | Some (TSLock _) => True
    | Some (TSFlushed _) => forall w, wrote tr0 i w -> holds_in i (forest s) w
    | Some TDone => In (EvRet y ROk) tr -> forall w, wrote tr0 i w -> holds_in i (disk s) w
    | _ => False
    end.
Proof.
  intros HP HM V G0 tr s X. induction X as [|tr s l s' es X IH PL E]; [now rewrite G0|].
  destruct (run_inv P s0 tr0 own0 HP HM V _ _ X) as (HM1 & own & V1).
  assert (W0 : forall w, wrote tr0 i w -> In w (cur i s)).
  { intros w [A B]. apply (v_w _ _ _ _ V1). split; apply in_or_app; now left. }
  pose proof (step_mono i own s _ l s' es V1 E) as MO.
  destruct l as [c|t x]; cbn [step] in E.
  - injection E as E. destruct (call_shape _ _ _ _ E) as (k & TS & _ & SH). rewrite TS, lget_snoc.
    assert (NE : y <> zlen (tasks s)).
    { intros ->. rewrite lget_none in IH by lia. exact IH. }
    destruct (Z.eqb_spec y (zlen (tasks s))); [contradiction|].
    destruct (lget (tasks s) y) as [[]|]; auto.
    + intros w Hw. apply MO, IH, Hw.
    + intros Y w Hw. apply MO, IH; [|exact Hw]. apply in_app_or in Y. destruct Y as [Y|Y]; [exact Y|]. exfalso.
      destruct SH as [[-> _]|(r & -> & _)]; cbn [In] in Y; intuition (try discriminate). congruence.
  - destruct (step_shape _ _ _ _ _ E) as (k & k' & G & ND & TS & _ & SH).
    assert (LG : forall t', lget (tasks s') t' = if t' =? t then Some k' else lget (tasks s) t') by (intros t'; rewrite TS; now apply set_get with k).
    rewrite LG. destruct (Z.eqb_spec y t) as [<-|NE].
    + rewrite G in IH. unfold do_step in E. rewrite G in E. cbn [obind] in E.
      destruct k; try contradiction.
      * destruct (_ || _); [discriminate|]. injection E as <- <-. specialize (LG y). rewrite Z.eqb_refl in LG. cbn [tasks set_task] in LG.
        rewrite (set_get _ _ _ _ G), Z.eqb_refl in LG. injection LG as <-. exact Logic.I.
      * destruct x; [destruct (all_known s)| |]; injection E as <- <-; specialize (LG y); rewrite Z.eqb_refl in LG; cbn [tasks] in LG;
          rewrite (set_get _ _ _ _ G), Z.eqb_refl in LG; injection LG as <-.
        -- cbn [forest]. intros w Hw. apply (updated_cur i own s _ V1). specialize (W0 _ Hw). split; [|exact W0].
           unfold cur in W0. destruct (zm_get i (fs s)) as [o|] eqn:F; [exact (v_reg _ _ _ _ V1 _ F)|]. destruct (zm_get i (forest s)); [eauto|destruct W0].
        -- intros Y. exfalso. apply in_app_or in Y. destruct Y as [Y|[Y|[]]]; [|discriminate].
           assert (In (EvRet y ROk) (tr0 ++ tr)) as Y2 by (apply in_or_app; now right). apply (m_ret _ _ HM1) in Y2. congruence.
        -- intros Y. exfalso. apply in_app_or in Y. destruct Y as [Y|[Y|[]]]; [|discriminate].
           assert (In (EvRet y ROk) (tr0 ++ tr)) as Y2 by (apply in_or_app; now right). apply (m_ret _ _ HM1) in Y2. congruence.
        -- intros Y. exfalso. apply in_app_or in Y. destruct Y as [Y|[Y|[]]]; [|discriminate].
           assert (In (EvRet y ROk) (tr0 ++ tr)) as Y2 by (apply in_or_app; now right). apply (m_ret _ _ HM1) in Y2. congruence.
      * destruct x; injection E as <- <-; specialize (LG y); rewrite Z.eqb_refl in LG; cbn [tasks] in LG;
          rewrite (set_get _ _ _ _ G), Z.eqb_refl in LG; injection LG as <-.
        -- cbn [disk]. intros _ w Hw. apply IH, Hw.
        -- intros Y. exfalso. apply in_app_or in Y. destruct Y as [Y|[Y|[]]]; [|discriminate].
           assert (In (EvRet y ROk) (tr0 ++ tr)) as Y2 by (apply in_or_app; now right). apply (m_ret _ _ HM1) in Y2. congruence.
        -- cbn [disk]. intros _ w Hw. apply IH, Hw.
    + destruct (lget (tasks s) y) as [[]|]; auto.
      * intros w Hw. apply MO, IH, Hw.
      * intros Y w Hw. apply MO, IH; [|exact Hw]. apply in_app_or in Y. destruct Y as [Y|Y]; [exact Y|]. exfalso.
        destruct SH as [[-> _]|(r & -> & _)]; cbn [In] in Y; intuition (try discriminate). congruence.
Qed.

End Run.

(** ** C26 *)

(** A sync that finds the pool dirty makes durable everything that was written
    before it was called: for every interleaving, whatever else fails. *)
Theorem C26_running_sync_is_durable i f tr1 s1 s2 es tr2 s3 :
  sorted_ids f -> exec (P0 i) (import f) tr1 s1 -> dirty s1 = true ->
  step s1 (LCall CSync) = Some (s2, es) -> exec (P0 i) s2 tr2 s3 ->
  let y := zlen (tasks s1) in In (EvRet y ROk) (es ++ tr2) ->
  forall w, wrote tr1 i w -> on_disk s3 i w.
Proof.
  intros O X1 D E X2 y R w Hw. destruct (import_inv i f O) as [HM0 V0].
  destruct (run_inv i (P0 i) _ _ _ (fun _ _ h => h) HM0 V0 _ _ X1) as (HM1 & own1 & V1). cbn [app] in *.
  assert (PL : P0 i s1 (LCall CSync)) by (split; [exact Logic.I|unfold keeps; discriminate]).
  pose proof (M_step _ _ _ _ _ HM1 E) as HM2. destruct (wrote_step i _ _ _ _ _ _ HM1 V1 PL E) as (own2 & V2).
  cbn [step do_call] in E. destruct (negb (alive s1)) eqn:A.
  - exfalso. injection E as <- <-. assert (In (EvRet y RErr) ((tr1 ++ [EvCall y CSync; EvRet y RErr]) ++ tr2)) as Y1 by (apply in_or_app; left; apply in_or_app; right; right; now left).
    assert (XX : forall tr s, exec (P0 i) (new_task s1 false TDone) tr s -> lget (tasks s) y = Some TDone /\ ~ In (EvRet y ROk) tr).
    { clear - y. intros tr s X. induction X as [|tr s l s' es X IH PL E].
      - split; [|auto]. cbn [tasks new_task]. rewrite lget_snoc. unfold y. now rewrite Z.eqb_refl.
      - destruct IH as [IH1 IH2]. pose proof (lget_range _ _ _ IH1) as RG. destruct l as [c|t x]; cbn [step] in E.
        + injection E as E. destruct (call_shape _ _ _ _ E) as (k & TS & _ & SH). rewrite TS, lget_snoc. destruct (Z.eqb_spec y (zlen (tasks s))); [lia|].
          split; [exact IH1|]. intros Y. apply in_app_or in Y. destruct Y as [Y|Y]; [auto|].
          destruct SH as [[-> _]|(r & -> & _)]; cbn [In] in Y; intuition (try discriminate). congruence.
        + destruct (step_shape _ _ _ _ _ E) as (k & k' & G & ND & TS & _ & SH). rewrite TS, (set_get _ _ _ _ G). destruct (Z.eqb_spec y t) as [->|]; [congruence|].
          split; [exact IH1|]. intros Y. apply in_app_or in Y. destruct Y as [Y|Y]; [auto|].
          destruct SH as [[-> _]|(r & -> & _)]; cbn [In] in Y; intuition (try discriminate). congruence. }
    destruct (XX _ _ X2) as [_ N]. apply in_app_or in R. destruct R as [R|R]; [|auto]. cbn [In] in R. intuition discriminate.
  - rewrite D in E. injection E as <- <-.
    assert (G : lget (tasks (new_task s1 false (TSync false))) y = Some (TSync false)).
    { cbn [tasks new_task]. rewrite lget_snoc. unfold y. now rewrite Z.eqb_refl. }
    pose proof (sync_phases i (P0 i) _ _ _ y (fun _ _ h => h) HM2 V2 G _ _ X2) as PH.
    destruct (run_inv i (P0 i) _ _ _ (fun _ _ h => h) HM2 V2 _ _ X2) as (HM3 & own3 & V3).
    apply in_app_or in R. destruct R as [R|R]; [cbn [In] in R; intuition discriminate|].
    assert (RD : lget (tasks s3) y = Some TDone) by (apply (m_ret _ _ HM3) with ROk; apply in_or_app; now right).
    rewrite RD in PH. apply (disk_in i _ _ _ _ V3). apply PH; [exact R|]. destruct Hw as [A1 A2]. split; apply in_or_app; now left.
Qed.

(** With orderly syncs that do not fail, the flag [dirty] tells the truth. *)
Definition mods (k : task) : bool := waits k || match k with TIn _ _ _ => true | _ => false end.

Record Clean (i : Z) (tr : list ev) (s : st) : Prop := {
  c_one : forall y k y' k', lget (tasks s) y = Some k -> lget (tasks s) y' = Some k' -> is_sync k = true -> is_sync k' = true -> y = y';
  c_idle : dirty s = false -> (forall y k, lget (tasks s) y = Some k -> is_sync k = false) ->
    (forall t k, lget (tasks s) t = Some k -> mods k = false) /\ (forall w, wrote tr i w -> holds_in i (disk s) w);
  c_wait : dirty s = false -> forall y b, lget (tasks s) y = Some (TSync b) -> forall t k, lget (tasks s) t = Some k -> mods k = true -> t < y;
  c_lock : dirty s = false -> forall y b, lget (tasks s) y = Some (TSLock b) -> forall t k, lget (tasks s) t = Some k -> mods k = false;
  c_flushed : dirty s = false -> forall y b, lget (tasks s) y = Some (TSFlushed b) ->
    (forall t k, lget (tasks s) t = Some k -> mods k = false) /\ (forall w, wrote tr i w -> holds_in i (forest s) w) }.

(** A step of a task that is not a sync and cannot write, in a clean state. *)
Lemma wrote_old tr s l s' es i : M tr s -> step s l = Some (s', es) -> (forall t o x, l = LStep t x -> lget (tasks s) t <> Some (TIn GWrite i o)) ->
  forall w, wrote (tr ++ es) i w -> wrote tr i w.
Proof.
  intros HM E N w [HC HR]. apply in_app_or in HC, HR. 
  assert (RT : forall r, In (EvRet w r) tr -> In (EvCall w (CWrite i)) tr).
  { intros r Hr. destruct HC as [HC|HC]; [exact HC|]. exfalso. apply (m_ret _ _ HM) in Hr. apply lget_range in Hr. destruct l as [c|t x]; cbn [step] in E.
    + injection E as E. destruct (call_shape _ _ _ _ E) as (k & _ & _ & [[-> _]|(r' & -> & _)]); cbn [In] in HC; intuition (try discriminate);
        match goal with Y : EvCall _ _ = EvCall _ _ |- _ => injection Y as <- _; lia end.
    + destruct (step_shape _ _ _ _ _ E) as (k & k' & _ & _ & _ & _ & [[-> _]|(r' & -> & _)]); cbn [In] in HC; intuition discriminate. }
  destruct HR as [HR|HR]; [split; [eapply RT; eauto|exact HR]|]. exfalso. destruct l as [c|t x]; cbn [step] in E.
  - injection E as E. destruct (call_shape _ _ _ _ E) as (k & _ & _ & [[-> _]|(r & -> & _ & CC)]); cbn [In] in HR; [intuition discriminate|].
    destruct HR as [HR|[HR|[]]]; [discriminate|]. injection HR as <- _. destruct HC as [HC|HC].
    * destruct (m_fits _ _ HM _ _ HC) as (k' & G & _). apply lget_range in G. lia.
    * cbn [In] in HC. destruct HC as [HC|[HC|[]]]; [|discriminate]. injection HC as ->. destruct CC; discriminate.
  - pose proof E as E0. destruct (step_shape _ _ _ _ _ E) as (k & k' & G & _ & _ & _ & [[-> _]|(r & -> & _)]); [destruct HR|].
    destruct HR as [HR|[]]. injection HR as <- ->. destruct HC as [HC|[HC|[]]]; [|discriminate].
    destruct (m_fits _ _ HM _ _ HC) as (k0 & G0 & FT). rewrite G in G0. injection G0 as <-.
    unfold do_step in E0. rewrite G in E0. cbn [obind] in E0.
    destruct k as [g j|g j|g j l|g j o|g j o| |bg|bg|bg|]; cbn [fits] in FT.
    * destruct (zm_get j (fs s)); discriminate.
    * destruct (zm_get j (forest s)); discriminate.
    * discriminate.
    * destruct g; try contradiction; destruct (wlocked s); discriminate.
    * destruct g; try contradiction. subst j. exact (N _ _ _ eq_refl G).
    * discriminate.
    * destruct bg; discriminate.
    * destruct bg; discriminate.
    * destruct bg; discriminate.
    * discriminate.
Qed.

Lemma not_sync_in s : existsb is_sync (tasks s) = false -> forall y k, lget (tasks s) y = Some k -> is_sync k = false.
Proof. intros E y k. apply existsb_lget, E. Qed.

(** A task that is not a sync takes a step: it stays what it is. *)
Lemma plain_step s t x s' es k : do_step s t x = Some (s', es) -> lget (tasks s) t = Some k -> is_sync k = false -> exists k',
  tasks s' = lset (tasks s) t k' /\ is_sync k' = false /\ (mods k = false -> mods k' = false) /\ (dirty s' = false -> dirty s = false) /\ disk s' = disk s.
Proof.
  intros E G NS. unfold do_step in E. rewrite G in E. cbn [obind] in E. cbv zeta in E.
  destruct k as [g j|g j|g j l|g j o|g j o| |bg|bg|bg|]; try discriminate NS.
  - destruct (zm_get j (fs s)); injection E as <- <-; eexists; (split; [reflexivity|]); split; [reflexivity| |reflexivity|]; cbn; auto.
  - destruct (zm_get j (forest s)); injection E as <- <-; eexists; (split; [reflexivity|]); split; [reflexivity| |reflexivity|]; cbn; auto.
  - injection E as <- <-; eexists; (split; [reflexivity|]); split; [reflexivity|]; cbn; auto.
  - destruct g; [destruct (lget (objs s) o); [|discriminate]; cbn [obind] in E|destruct (wlocked s); [discriminate|].. ];
      injection E as <- <-; eexists; (split; [reflexivity|]); split; try reflexivity; cbn; auto.
  - destruct g; [destruct (lget (objs s) o); [|discriminate]; cbn [obind] in E..|destruct (zm_get j (fs s))];
      injection E as <- <-; eexists; (split; [reflexivity|]); split; try reflexivity; cbn; auto.
  - destruct (wlocked s); [discriminate|]. injection E as <- <-; eexists; (split; [reflexivity|]); split; try reflexivity. cbn. split; [discriminate|]. split; [discriminate|reflexivity].
  - discriminate.
Qed.

Lemma clean_step i tr s l s' es own : M tr s -> Inv i own s (wrote tr i) -> Clean i tr s -> P0 i s l -> orderly s l -> step s l = Some (s', es) ->
  no_sync_failed (tr ++ es) -> Clean i (tr ++ es) s'.
Proof.
  intros HM V C PL OD E NF. pose proof (step_mono i own s _ l s' es V E) as MO.
  destruct l as [c|t x].
  - (* calls *)
    pose proof (wrote_old tr s (LCall c) s' es i HM E ltac:(discriminate)) as WO. cbn [step] in E. injection E as E.
    pose proof E as E0. destruct (call_shape _ _ _ _ E) as (k & TS & FK & SH).
    assert (LG : forall t', lget (tasks s') t' = if t' =? zlen (tasks s) then Some k else lget (tasks s) t') by (intros t'; rewrite TS; apply lget_snoc).
    assert (LT : forall t k, lget (tasks s) t = Some k -> t <> zlen (tasks s)) by (intros t0 k0 G; apply lget_range in G; lia).
    assert (PLAIN : is_sync k = false -> (dirty s' = false -> dirty s = false /\ mods k = false) -> Clean i (tr ++ es) s').
    { intros NS DI. constructor.
      - intros y1 k1 y2 k2 G1 G2 S1 S2. rewrite LG in G1, G2. destruct (y1 =? _); [injection G1 as <-; congruence|]. destruct (y2 =? _); [injection G2 as <-; congruence|].
        eapply (c_one _ _ _ C); eauto.
      - intros D NA. destruct (DI D) as [D0 NM]. destruct (c_idle _ _ _ C D0) as [A B].
        { intros y k0 G. apply (NA y). rewrite LG. destruct (Z.eqb_spec y (zlen (tasks s))); [now apply LT in G|exact G]. }
        split.
        + intros t k0. rewrite LG. destruct (t =? _); [intros [= <-]; exact NM|]. intros G. eapply A; eauto.
        + intros w Hw. apply MO, B, WO, Hw.
      - intros D y b G t k0 G' MD. destruct (DI D) as [D0 NM]. rewrite LG in G, G'. destruct (y =? _); [injection G as ->; discriminate|].
        destruct (t =? _); [injection G' as <-; congruence|]. eapply (c_wait _ _ _ C); eauto.
      - intros D y b G t k0 G'. destruct (DI D) as [D0 NM]. rewrite LG in G, G'. destruct (y =? _); [injection G as ->; discriminate|].
        destruct (t =? _); [injection G' as <-; exact NM|]. eapply (c_lock _ _ _ C); eauto.
      - intros D y b G. destruct (DI D) as [D0 NM]. rewrite LG in G. destruct (y =? _); [injection G as ->; discriminate|].
        destruct (c_flushed _ _ _ C D0 _ _ G) as [A B]. split.
        + intros t k0. rewrite LG. destruct (t =? _); [intros [= <-]; exact NM|]. intros G'. eapply A; eauto.
        + intros w Hw. apply MO, B, WO, Hw. }
    assert (SYNC : forall b, k = TSync b -> dirty s = true -> existsb is_sync (tasks s) = false -> Clean i (tr ++ es) s').
    { intros b -> D NS. pose proof (not_sync_in s NS) as NN. constructor.
      - intros y1 k1 y2 k2 G1 G2 S1 S2. rewrite LG in G1, G2. destruct (Z.eqb_spec y1 (zlen (tasks s))) as [->|]; [|apply NN in G1; congruence].
        destruct (Z.eqb_spec y2 (zlen (tasks s))) as [->|]; [reflexivity|apply NN in G2; congruence].
      - intros _ NA. specialize (NA (zlen (tasks s)) (TSync b)). rewrite LG, Z.eqb_refl in NA. now specialize (NA eq_refl).
      - intros _ y b' G t k0 G' MD. rewrite LG in G, G'. destruct (Z.eqb_spec y (zlen (tasks s))) as [->|]; [|apply NN in G; discriminate].
        destruct (Z.eqb_spec t (zlen (tasks s))) as [->|]; [injection G' as <-; discriminate|]. apply lget_range in G'. lia.
      - intros _ y b' G. rewrite LG in G. destruct (Z.eqb_spec y (zlen (tasks s))) as [->|]; [discriminate|apply NN in G; discriminate].
      - intros _ y b' G. rewrite LG in G. destruct (Z.eqb_spec y (zlen (tasks s))) as [->|]; [discriminate|apply NN in G; discriminate]. }
    cbn [orderly] in OD. unfold do_call in E0. destruct c; try (injection E0 as <- <-; assert (k = match k with _ => k end) as _ by reflexivity;
      cbn [tasks new_task] in TS; apply app_inj_tail in TS; destruct TS as [_ <-]; apply PLAIN; [reflexivity|cbn [dirty new_task]; try discriminate; auto]).
    + destruct (negb (alive s)) eqn:A.
      * exfalso. injection E0 as <- <-. apply (NF (zlen (tasks s))); [left|]; apply in_or_app; right; [now left|right; now left].
      * destruct (dirty s) eqn:D; injection E0 as <- <-; cbn [tasks new_task] in TS; apply app_inj_tail in TS; destruct TS as [_ <-].
        -- eapply SYNC; eauto.
        -- apply PLAIN; [reflexivity|]. auto.
    + destruct (dirty s && alive s) eqn:DA; injection E0 as <- <-; cbn [tasks new_task] in TS; apply app_inj_tail in TS; destruct TS as [_ <-].
      * apply andb_prop in DA. destruct DA as [D _]. eapply SYNC; eauto.
      * apply PLAIN; [reflexivity|]. auto.
  - (* steps *)
    pose proof (M_step _ _ _ _ _ HM E) as HM'. cbn [step] in E. destruct (step_shape _ _ _ _ _ E) as (k & k' & G & ND & TS & FK & SH).
    assert (LG : forall t', lget (tasks s') t' = if t' =? t then Some k' else lget (tasks s) t') by (intros t'; rewrite TS; now apply set_get with k).
    destruct (is_sync k) eqn:IS.
    + (* a sync *)
      assert (WO : forall w, wrote (tr ++ es) i w -> wrote tr i w).
      { apply (wrote_old tr s (LStep t x) s' es i HM E). intros t0 o x0 [= <- <-] G'. rewrite G in G'. injection G' as ->. discriminate. }
      assert (OT : forall y k0, y <> t -> lget (tasks s) y = Some k0 -> is_sync k0 = false).
      { intros y k0 N G'. destruct (is_sync k0) eqn:E0; [|reflexivity]. exfalso. apply N. eapply (c_one _ _ _ C); eauto. }
      assert (ONE : forall y1 k1 y2 k2, lget (tasks s') y1 = Some k1 -> lget (tasks s') y2 = Some k2 -> is_sync k1 = true -> is_sync k2 = true -> y1 = y2).
      { intros y1 k1 y2 k2 G1 G2 S1 S2. rewrite LG in G1, G2. destruct (Z.eqb_spec y1 t) as [->|N1]; [|rewrite (OT _ _ N1 G1) in S1; discriminate].
        destruct (Z.eqb_spec y2 t) as [->|N2]; [reflexivity|rewrite (OT _ _ N2 G2) in S2; discriminate]. }
      assert (FAIL : es = [EvRet t RErr] -> Clean i (tr ++ es) s').
      { intros ->. exfalso. destruct (m_call _ _ HM _ _ G) as (c & Hc). destruct (m_fits _ _ HM _ _ Hc) as (k0 & G0 & FT). rewrite G in G0. injection G0 as <-.
        apply (NF t).
        - destruct k as [| | | | | |b|b|b|]; try discriminate IS; cbn [fits] in FT; subst c; destruct b; [right|left|right|left|right|left]; apply in_or_app; now left.
        - apply in_or_app. right. now left. }
      unfold do_step in E. rewrite G in E. cbn [obind] in E. cbn [orderly] in OD. rewrite G in OD. destruct k as [| | | | | |b|b|b|]; try discriminate IS.
      * destruct (wlocked s || existsb holds (tasks s)) eqn:HB; [discriminate|]. apply orb_false_elim in HB. destruct HB as [_ HB].
        injection E as <- <-. cbn [tasks set_task] in TS.
        assert (k' = TSLock b) as -> by (specialize (LG t); rewrite Z.eqb_refl in LG; cbn [tasks set_task] in LG; rewrite (set_get _ _ _ _ G), Z.eqb_refl in LG; now injection LG).
        constructor; cbn [dirty set_task].
        -- exact ONE.
        -- intros _ NA. specialize (NA t (TSLock b)). rewrite LG, Z.eqb_refl in NA. now specialize (NA eq_refl).
        -- intros _ y b' G'. rewrite LG in G'. destruct (Z.eqb_spec y t) as [->|N]; [discriminate|]. apply (OT _ _ N) in G'. discriminate.
        -- intros D y b' G' t0 k0 G0. rewrite LG in G0. destruct (Z.eqb_spec t0 t) as [->|N]; [injection G0 as <-; reflexivity|].
           destruct (mods k0) eqn:MD; [|reflexivity]. exfalso. pose proof (c_wait _ _ _ C D _ _ G _ _ G0 MD) as LT.
           pose proof (OD _ _ LT G0) as WT. pose proof (existsb_lget _ _ HB _ _ G0) as HO. unfold mods in MD. rewrite WT in MD. destruct k0; discriminate.
        -- intros _ y b' G'. rewrite LG in G'. destruct (Z.eqb_spec y t) as [->|N]; [discriminate|]. apply (OT _ _ N) in G'. discriminate.
      * destruct x; [destruct (all_known s)| |]; try (injection E as <- <-; apply FAIL; reflexivity).
        injection E as <- <-. cbn [tasks] in TS.
        assert (k' = TSFlushed b) as -> by (specialize (LG t); rewrite Z.eqb_refl in LG; cbn [tasks] in LG; rewrite (set_get _ _ _ _ G), Z.eqb_refl in LG; now injection LG).
        constructor; cbn [dirty].
        -- exact ONE.
        -- intros _ NA. specialize (NA t (TSFlushed b)). rewrite LG, Z.eqb_refl in NA. now specialize (NA eq_refl).
        -- intros _ y b' G'. rewrite LG in G'. destruct (Z.eqb_spec y t) as [->|N]; [discriminate|]. apply (OT _ _ N) in G'. discriminate.
        -- intros _ y b' G'. rewrite LG in G'. destruct (Z.eqb_spec y t) as [->|N]; [discriminate|]. apply (OT _ _ N) in G'. discriminate.
        -- intros D y b' G'. split.
           ++ intros t0 k0 G0. rewrite LG in G0. destruct (Z.eqb_spec t0 t) as [->|N]; [injection G0 as <-; reflexivity|]. eapply (c_lock _ _ _ C); eauto.
           ++ intros w Hw. apply WO in Hw. cbn [forest]. apply (updated_cur i own s _ V). pose proof (v_w _ _ _ _ V w Hw) as W0. split; [|exact W0].
              unfold cur in W0. destruct (zm_get i (fs s)) as [o|] eqn:F; [exact (v_reg _ _ _ _ V _ F)|]. destruct (zm_get i (forest s)); [eauto|destruct W0].
      * destruct x; try (injection E as <- <-; apply FAIL; reflexivity).
        injection E as <- <-. cbn [tasks] in TS.
        assert (k' = TDone) as -> by (specialize (LG t); rewrite Z.eqb_refl in LG; cbn [tasks] in LG; rewrite (set_get _ _ _ _ G), Z.eqb_refl in LG; now injection LG).
        assert (NS : forall y k0, lget (lset (tasks s) t TDone) y = Some k0 -> is_sync k0 = false).
        { intros y k0 G'. cbn [tasks] in LG. rewrite LG in G'. destruct (Z.eqb_spec y t) as [->|N]; [injection G' as <-; reflexivity|now apply (OT _ _ N)]. }
        constructor; cbn [dirty tasks disk].
        -- exact ONE.
        -- intros D _. destruct (c_flushed _ _ _ C D _ _ G) as [A B]. split.
           ++ intros t0 k0 G0. cbn [tasks] in LG. rewrite LG in G0. destruct (Z.eqb_spec t0 t) as [->|N]; [injection G0 as <-; reflexivity|]. eapply A; eauto.
           ++ intros w Hw. apply B, WO, Hw.
        -- intros _ y b' G'. apply NS in G'. discriminate.
        -- intros _ y b' G'. apply NS in G'. discriminate.
        -- intros _ y b' G'. apply NS in G'. discriminate.
    + (* another task *)
      destruct (plain_step _ _ _ _ _ _ E G IS) as (k1 & TS1 & NS1 & MM & DD & DK).
      assert (k1 = k') as ->.
      { specialize (LG t). rewrite TS1, (set_get _ _ _ _ G), Z.eqb_refl in LG. now injection LG. }
      assert (SN : forall y k0, is_sync k0 = true -> (lget (tasks s') y = Some k0 <-> lget (tasks s) y = Some k0)).
      { intros y k0 S0. rewrite LG. destruct (Z.eqb_spec y t) as [->|]; [|tauto]. rewrite G. split; intros [= Y]; congruence. }
      assert (WO : mods k = false -> forall w, wrote (tr ++ es) i w -> wrote tr i w).
      { intros NM. apply (wrote_old tr s (LStep t x) s' es i HM E). intros t0 o x0 [= <- <-] G'. rewrite G in G'. injection G' as ->. discriminate. }
      constructor.
      * intros y1 k1 y2 k2 G1 G2 S1 S2. apply (SN _ _ S1) in G1. apply (SN _ _ S2) in G2. eapply (c_one _ _ _ C); eauto.
      * intros D NA. destruct (c_idle _ _ _ C (DD D)) as [A B].
        { intros y k0 G'. destruct (is_sync k0) eqn:S0; [|reflexivity]. apply (SN _ _ S0) in G'. rewrite (NA _ _ G') in S0. discriminate. }
        split.
        -- intros t0 k0 G0. rewrite LG in G0. destruct (Z.eqb_spec t0 t) as [->|]; [injection G0 as <-; apply MM; eapply A; eauto|eapply A; eauto].
        -- intros w Hw. rewrite DK. apply B. apply WO; [eapply A; eauto|exact Hw].
      * intros D y b G' t0 k0 G0 MD. apply SN in G'; [|reflexivity]. rewrite LG in G0. destruct (Z.eqb_spec t0 t) as [->|].
        -- injection G0 as <-. apply (c_wait _ _ _ C (DD D) _ _ G' _ _ G). destruct (mods k) eqn:MK; [reflexivity|]. rewrite MM in MD; [discriminate|reflexivity].
        -- eapply (c_wait _ _ _ C (DD D)); eauto.
      * intros D y b G' t0 k0 G0. apply SN in G'; [|reflexivity]. rewrite LG in G0. destruct (Z.eqb_spec t0 t) as [->|].
        -- injection G0 as <-. apply MM. eapply (c_lock _ _ _ C (DD D)); eauto.
        -- eapply (c_lock _ _ _ C (DD D)); eauto.
      * intros D y b G'. apply SN in G'; [|reflexivity]. destruct (c_flushed _ _ _ C (DD D) _ _ G') as [A B]. split.
        -- intros t0 k0 G0. rewrite LG in G0. destruct (Z.eqb_spec t0 t) as [->|]; [injection G0 as <-; apply MM; eapply A; eauto|eapply A; eauto].
        -- intros w Hw. apply MO, B. apply WO; [eapply A; eauto|exact Hw].
Qed.

(** Everything written before a sync is durable when it returns, for every
    interleaving in which syncs are orderly and none fails.

    Missing from the full claim: overlapping syncs, operations that are begun
    before a sync and get their transaction after it, and syncs after a failed
    one; see the refutations. *)
Theorem C26_sync_is_durable_partial i f tr1 s1 s2 es tr2 s3 :
  sorted_ids f -> let P s l := P0 i s l /\ orderly s l in
  exec P (import f) tr1 s1 -> P s1 (LCall CSync) ->
  step s1 (LCall CSync) = Some (s2, es) -> exec P s2 tr2 s3 ->
  no_sync_failed (tr1 ++ es ++ tr2) ->
  let y := zlen (tasks s1) in In (EvRet y ROk) (es ++ tr2) ->
  forall w, wrote tr1 i w -> on_disk s3 i w.
Proof.
  intros O P X1 PS E X2 NF y R w Hw.
  assert (PP : forall s l, P s l -> P0 i s l) by (intros s l [A _]; exact A).
  assert (CL : forall tr s, exec P (import f) tr s -> no_sync_failed tr -> M tr s /\ (exists own, Inv i own s (wrote tr i)) /\ Clean i tr s).
  { clear - O PP. intros tr s X. induction X as [|tr s l s' es X IH PL E]; intros NF.
    - destruct (import_inv i f O) as [A B]. split; [exact A|]. split; [eauto|].
      assert (Y : forall t k, lget (tasks (import f)) t = Some k -> False).
      { intros t k G. cbn in G. unfold lget in G. destruct (t <? 0); [discriminate|]. now destruct (Z.to_nat t). }
      constructor; try discriminate. intros y k y' k' G. now apply Y in G.
    - assert (NF0 : no_sync_failed tr).
      { intros y Hy R. apply (NF y); [destruct Hy; [left|right]; apply in_or_app; now left|apply in_or_app; now left]. }
      destruct (IH NF0) as (A & (own & B) & C). split; [eapply M_step; eauto|]. split; [eapply wrote_step; eauto|].
      eapply clean_step; eauto. apply PL. }
  assert (NF1 : no_sync_failed tr1).
  { intros z Hz R1. apply (NF z); [destruct Hz; [left|right]; apply in_or_app; now left|apply in_or_app; now left]. }
  destruct (CL _ _ X1 NF1) as (HM & (own & V) & C). destruct (dirty s1) eqn:D.
  - eapply (C26_running_sync_is_durable i f tr1 s1 s2 es tr2 s3); eauto; eapply exec_mono; eauto.
  - assert (NA : existsb is_sync (tasks s1) = false) by apply PS. destruct (c_idle _ _ _ C D (not_sync_in _ NA)) as [_ B].
    assert (DE : disk s2 = disk s1). { cbn [step do_call] in E. rewrite D in E. destruct (negb (alive s1)); injection E as <- _; reflexivity. }
    pose proof (M_step _ _ _ _ _ HM E) as HM2. destruct (wrote_step i _ _ _ _ _ _ HM V (PP _ _ PS) E) as (own2 & V2).
    destruct (run_inv i P _ _ _ PP HM2 V2 _ _ X2) as (_ & own3 & V3).
    apply (disk_in i _ _ _ _ V3). apply (mono i P _ _ _ PP HM2 V2 _ _ X2). rewrite DE. apply B, Hw.
Qed.

(** ** C70 *)

(** A completed write is seen by every later read, if no two tasks open the data
    set at the same time (and it is not destroyed). *)
Theorem C70_reads_see_writes_partial i f tr1 s1 s2 es tr2 s3 l :
  sorted_ids f -> exec (P0 i) (import f) tr1 s1 ->
  step s1 (LCall (CRead i)) = Some (s2, es) -> exec (P0 i) s2 tr2 s3 ->
  In (EvRet (zlen (tasks s1)) (RLog l)) tr2 ->
  forall w, wrote tr1 i w -> In w l.
Proof.
  intros O X1 E X2 R w Hw. set (y := zlen (tasks s1)) in *. destruct (import_inv i f O) as [HM0 V0].
  destruct (run_inv i (P0 i) _ _ _ (fun _ _ h => h) HM0 V0 _ _ X1) as (HM1 & own1 & V1). cbn [app] in *.
  assert (PL : P0 i s1 (LCall (CRead i))) by (split; [exact Logic.I|unfold keeps; discriminate]).
  pose proof (M_step _ _ _ _ _ HM1 E) as HM2. destruct (wrote_step i _ _ _ _ _ _ HM1 V1 PL E) as (own2 & V2).
  cbn [step do_call] in E. injection E as <- <-. clear X1 HM0 V0.
  assert (CY : In (EvCall y (CRead i)) (tr1 ++ [EvCall y (CRead i)])) by (apply in_or_app; right; now left).
  induction X2 as [|tr s l0 s' es X IH PLs E]; [destruct R|]. apply in_app_or in R. destruct R as [R|R]; [auto|].
  destruct (run_inv i (P0 i) _ _ _ (fun _ _ h => h) HM2 V2 _ _ X) as (HM & own & V).
  destruct l0 as [c|t x]; cbn [step] in E.
  - injection E as E. destruct (call_shape _ _ _ _ E) as (k & _ & _ & [[-> _]|(r & -> & _ & CC)]); cbn [In] in R; [intuition discriminate|].
    destruct R as [R|[R|[]]]; [discriminate|]. injection R as R ->. exfalso.
    unfold do_call in E. destruct c; try discriminate; [destruct (negb (alive s)); [|destruct (dirty s)]|destruct (dirty s && alive s)]; discriminate.
  - pose proof E as E0. destruct (step_shape _ _ _ _ _ E) as (k & k' & G & _ & _ & _ & [[-> _]|(r & -> & _)]); [destruct R|].
    destruct R as [R|[]]. injection R as -> ->.
    assert (CY' : In (EvCall y (CRead i)) ((tr1 ++ [EvCall y (CRead i)]) ++ tr)) by (apply in_or_app; now left).
    destruct (m_fits _ _ HM _ _ CY') as (k0 & G0 & FT). rewrite G in G0. injection G0 as <-.
    unfold do_step in E0. rewrite G in E0. cbn [obind] in E0.
    destruct k as [g j|g j|g j q|g j o|g j o| |bg|bg|bg|]; cbn [fits] in FT.
    + destruct (zm_get j (fs s)); discriminate.
    + destruct (zm_get j (forest s)); discriminate.
    + discriminate.
    + destruct g; try contradiction. subst j. pose proof (v_tasks _ _ _ _ V _ _ G) as (_ & _ & _ & T). specialize (T eq_refl).
      destruct (lget (objs s) o) as [q|] eqn:L; [|discriminate]. cbn [obind] in E0. injection E0 as _ ->.
      assert (In w (cur i s)) as Y.
      { apply (v_w _ _ _ _ V). destruct Hw as [A B]. split; apply in_or_app; left; apply in_or_app; now left. }
      unfold cur in Y. now rewrite T, L in Y.
    + destruct g; try contradiction. destruct (lget (objs s) o); discriminate.
    + discriminate.
    + destruct bg; discriminate.
    + destruct bg; discriminate.
    + destruct bg; discriminate.
    + discriminate.
Qed.

(** While a data set is being destroyed, nobody is opening it, and nobody else is
    destroying it; and the disks do not fail. *)
Definition destroys (j : Z) (k : task) : bool := match k with THave GDestroy j' _ | TIn GDestroy j' _ => j' =? j | _ => false end.
Definition calm (s : st) (l : lab) : Prop :=
  match l with
  | LStep t x => x = IOk /\
    match lget (tasks s) t with
    | Some (TIn GDestroy j _) => forall t' k, t' <> t -> lget (tasks s) t' = Some k -> opens j k = false /\ destroys j k = false
    | _ => True
    end
  | LCall _ => True
  end.

Record Calm (s : st) : Prop := {
  a_forest : zm_ok (forest s);
  a_fs : zm_ok (fs s);
  a_known : forall j o, zm_get j (fs s) = Some o -> exists l, zm_get j (forest s) = Some l;
  a_reg : forall t g j l, lget (tasks s) t = Some (TReg g j l) -> exists l', zm_get j (forest s) = Some l';
  a_destroy : forall t k j, lget (tasks s) t = Some k -> destroys j k = true -> exists o, zm_get j (fs s) = Some o;
  a_alive : alive s = true }.

Lemma Calm_tasks s d t k tk : Calm s -> (forall t', lget tk t' = if t' =? t then Some k else lget (tasks s) t') ->
  (forall g j l, k = TReg g j l -> exists l', zm_get j (forest s) = Some l') ->
  (forall j, destroys j k = true -> exists o, zm_get j (fs s) = Some o) ->
  forall dk ob, Calm (mkst d true (fs s) ob (forest s) dk tk).
Proof.
  intros C LG R D dk ob. constructor; cbn [fs forest tasks alive]; try apply C; [| |reflexivity].
  - intros t' g j l. rewrite LG. destruct (t' =? t); [intros [= ->]; eapply R; reflexivity|apply C].
  - intros t' k' j. rewrite LG. destruct (t' =? t); [intros [= <-]; apply D|apply (a_destroy _ C)].
Qed.

Lemma forest_mem_updated s j : zm_get j (updated s) <> None <-> zm_get j (forest s) <> None.
Proof. rewrite updated_get. destruct (zm_get j (forest s)); split; intros H; try exact H; discriminate. Qed.

Lemma calm_step s l s' es : Calm s -> calm s l -> step s l = Some (s', es) ->
  Calm s' /\ (forall t, ~ In (EvRet t RPanic) es) /\
  (forall t k, lget (tasks s) t = Some k -> is_sync k = true -> ~ In (EvRet t RErr) es) /\
  (forall t, In (EvCall t CSync) es \/ In (EvCall t CBg) es -> ~ In (EvRet t RErr) es).
Proof.
  intros C CA E. pose proof (a_alive _ C) as AL. destruct l as [c|t x]; cbn [step calm] in *.
  - injection E as E. pose proof E as E0. destruct (call_shape _ _ _ _ E) as (k & TS & _ & SH).
    unfold do_call in E0. rewrite AL in E0.
    assert (CT : forall d k, (forall g j l, k = TReg g j l -> False) -> (forall j, destroys j k = false) -> Calm (new_task s d k)).
    { intros d k0 A B. unfold new_task. rewrite AL. apply (Calm_tasks s d (zlen (tasks s)) k0); auto.
      - intros t'. apply lget_snoc.
      - intros g j l Y. now apply A in Y.
      - intros j Y. rewrite B in Y. discriminate. }
    destruct c; [injection E0 as <- <-..|cbn [negb] in E0; destruct (dirty s)|rewrite andb_true_r in E0; destruct (dirty s)]; try (injection E0 as <- <-);
      (split; [apply CT; [discriminate|reflexivity]|]); split; [|split| |split| |split| |split| |split| |split| |split| |split]; cbn [In]; intros; intuition discriminate.
  - destruct CA as [-> CA]. pose proof E as E0. destruct (step_shape _ _ _ _ _ E) as (k & k' & G & ND & TS & FK & SH).
    assert (LG : forall k', forall t', lget (lset (tasks s) t k') t' = if t' =? t then Some k' else lget (tasks s) t') by (intros k0 t'; now apply set_get with k).
    assert (NC : forall t c, ~ In (EvCall t c) es) by (destruct SH as [[-> _]|(r & -> & _)]; intros t0 c Y; cbn [In] in Y; intuition discriminate).
    assert (CT : forall dk ob d k, (forall g j l, k = TReg g j l -> exists l', zm_get j (forest s) = Some l') ->
      (forall j, destroys j k = true -> exists o, zm_get j (fs s) = Some o) -> Calm (mkst d (alive s) (fs s) ob (forest s) dk (lset (tasks s) t k))).
    { intros dk ob d k0 A B. rewrite AL. apply (Calm_tasks s d t k0); auto. }
    unfold do_step in E0. rewrite G in E0. cbn [obind] in E0. cbv zeta in E0. rewrite G in CA.
    assert (TRIV : forall t1 k1, es = [] -> lget (tasks s) t1 = Some k1 -> is_sync k1 = true -> ~ In (EvRet t1 RErr) es) by (intros ? ? -> _ _ []).
    assert (FIN : Calm s' -> (forall t0, ~ In (EvRet t0 RPanic) es) -> (is_sync k = true -> ~ In (EvRet t RErr) es) ->
      Calm s' /\ (forall t, ~ In (EvRet t RPanic) es) /\ (forall t k, lget (tasks s) t = Some k -> is_sync k = true -> ~ In (EvRet t RErr) es) /\
      (forall t, In (EvCall t CSync) es \/ In (EvCall t CBg) es -> ~ In (EvRet t RErr) es)).
    { intros A B D. split; [exact A|]. split; [exact B|]. split.
      - intros t1 k1 G1 S1 Y. destruct SH as [[-> _]|(r & -> & _)]; [destruct Y|]. destruct Y as [Y|[]]. injection Y as <- ->. rewrite G in G1. injection G1 as <-.
        apply (D S1). now left.
      - intros t1 [Y|Y]; now apply NC in Y. }
    destruct k as [g j|g j|g j l|g j o|g j o| |bg|bg|bg|].
    + destruct (zm_get j (fs s)) as [o|] eqn:F; injection E0 as <- <-; apply FIN; try (intros; intros []).
      * apply CT; [discriminate|]. intros j'. cbn [destroys]. destruct g; try discriminate. intros Y. apply Z.eqb_eq in Y. subst. eauto.
      * apply CT; [discriminate|]. intros j'. discriminate.
    + destruct (zm_get j (forest s)) as [l|] eqn:F; injection E0 as <- <-; apply FIN.
      * apply CT; [intros ? ? ? [= <- <- <-]; eauto|]. intros j'. discriminate.
      * intros t0 [].
      * discriminate.
      * apply CT; discriminate.
      * intros t0 [Y|[]]; discriminate.
      * discriminate.
    + injection E0 as <- <-; apply FIN; try (intros; intros []). rewrite AL.
      set (fs' := if zm_mem j (fs s) then fs s else zm_set j (zlen (objs s)) (fs s)).
      assert (FS : forall q o, zm_get q (fs s) = Some o -> exists o', zm_get q fs' = Some o').
      { intros q o Q. unfold fs'. destruct (zm_mem j (fs s)); [eauto|]. rewrite zm_get_set by apply C. destruct (q =? j); eauto. }
      assert (FJ : exists o, zm_get j fs' = Some o).
      { unfold fs'. destruct (zm_mem j (fs s)) eqn:Y; [now apply zm_mem_get|]. rewrite zm_get_set by apply C. rewrite Z.eqb_refl. eauto. }
      assert (FR : forall q o, zm_get q fs' = Some o -> q = j \/ exists o', zm_get q (fs s) = Some o').
      { intros q o. unfold fs'. destruct (zm_mem j (fs s)); [eauto|]. rewrite zm_get_set by apply C. destruct (Z.eqb_spec q j); eauto. }
      constructor; cbn [fs forest tasks alive].
      * apply C.
      * unfold fs'. destruct (zm_mem j (fs s)); [apply C|apply zm_ok_set, C].
      * intros q o Q. destruct (FR _ _ Q) as [->|(o' & Q')]; [eapply (a_reg _ C); eauto|eapply (a_known _ C); eauto].
      * intros t' g' j' l'. rewrite LG. destruct (t' =? t); [discriminate|apply (a_reg _ C)].
      * intros t' k0 j'. rewrite LG. destruct (t' =? t).
        -- intros [= <-]. cbn [destroys]. destruct g; try discriminate. intros Y. apply Z.eqb_eq in Y. subst. exact FJ.
        -- intros G' Y. destruct (a_destroy _ C _ _ _ G' Y) as (o & Q). eauto.
      * reflexivity.
    + destruct g; [destruct (lget (objs s) o) as [q|]; [|discriminate]; cbn [obind] in E0; injection E0 as <- <-; apply FIN; try discriminate;
          [apply CT; discriminate|intros t0 [Y|[]]; discriminate]| | |];
      (destruct (wlocked s); [discriminate|]; injection E0 as <- <-; apply FIN; try (intros; intros []); apply CT; [discriminate|]; intros j'; cbn [destroys]; try discriminate;
        intros Y; exact (a_destroy _ C _ _ j' G Y)).
    + destruct g; try (destruct (lget (objs s) o) as [q|]; [|discriminate]; cbn [obind] in E0; injection E0 as <- <-; apply FIN; try discriminate;
          [apply CT; discriminate|intros t0 [Y|[]]; discriminate]).
      destruct (a_destroy _ C _ _ j G ltac:(cbn [destroys]; apply Z.eqb_refl)) as (q & Q). rewrite Q in E0. injection E0 as <- <-.
      apply FIN; [|intros t0 [Y|[]]; discriminate|discriminate]. rewrite AL. constructor; cbn [fs forest tasks alive].
      * apply zm_ok_del, C.
      * apply zm_ok_del, C.
      * intros j' o'. rewrite !zm_get_del by apply C. destruct (j' =? j); [discriminate|apply (a_known _ C)].
      * intros t' g' j' l'. rewrite LG. destruct (Z.eqb_spec t' t) as [->|N]; [discriminate|]. intros G'. destruct (CA _ _ N G') as [OP _]. cbn [opens] in OP.
        rewrite zm_get_del by apply C. rewrite OP. eapply (a_reg _ C); eauto.
      * intros t' k0 j'. rewrite LG. destruct (Z.eqb_spec t' t) as [->|N]; [intros [= <-]; discriminate|]. intros G' Y. destruct (CA _ _ N G') as [_ DS].
        rewrite zm_get_del by apply C. destruct (Z.eqb_spec j' j) as [->|]; [congruence|]. eapply (a_destroy _ C); eauto.
      * reflexivity.
    + destruct (wlocked s); [discriminate|]. injection E0 as <- <-; apply FIN; try (intros; intros []). rewrite AL.
      assert (FF : forall q l, zm_get q (forest s) = Some l -> exists l', zm_get q (zm_set (fresh_id (forest s)) [] (forest s)) = Some l').
      { intros q l Q. rewrite zm_get_set by apply C. destruct (q =? _); eauto. }
      constructor; cbn [fs forest tasks alive].
      * apply zm_ok_set, C.
      * apply C.
      * intros j o Q. destruct (a_known _ C _ _ Q). eauto.
      * intros t' g' j' l'. rewrite LG. destruct (t' =? t); [discriminate|]. intros G'. destruct (a_reg _ C _ _ _ _ G'). eauto.
      * intros t' k0 j'. rewrite LG. destruct (t' =? t); [intros [= <-]; discriminate|apply (a_destroy _ C)].
      * reflexivity.
    + destruct (_ || _); [discriminate|]. injection E0 as <- <-; apply FIN; try (intros; intros []). apply CT; discriminate.
    + assert (AK : all_known s = true).
      { unfold all_known. apply forallb_forall. intros [j o] Hj. cbn [fst]. apply zm_mem_get. apply (a_known _ C j o). apply zm_in_get; [apply C|exact Hj]. }
      rewrite AK in E0. injection E0 as <- <-; apply FIN; try (intros; intros []). rewrite AL.
      assert (FF : forall q l, zm_get q (forest s) = Some l -> exists l', zm_get q (updated s) = Some l').
      { intros q l Q. rewrite updated_get, Q. eauto. }
      constructor; cbn [fs forest tasks alive].
      * apply updated_ok, C.
      * apply C.
      * intros j o Q. destruct (a_known _ C _ _ Q). eauto.
      * intros t' g' j' l'. rewrite LG. destruct (t' =? t); [discriminate|]. intros G'. destruct (a_reg _ C _ _ _ _ G'). eauto.
      * intros t' k0 j'. rewrite LG. destruct (t' =? t); [intros [= <-]; discriminate|apply (a_destroy _ C)].
      * reflexivity.
    + injection E0 as <- <-; apply FIN; [apply CT; discriminate|intros t0 [Y|[]]; discriminate|intros _ [Y|[]]; discriminate].
    + discriminate.
Qed.

(** If data sets are destroyed only when nobody is opening them, nothing panics
    and every sync succeeds. *)
Theorem C70_syncs_succeed_partial f tr s : sorted_ids f -> exec calm (import f) tr s ->
  no_sync_failed tr /\ (forall t, ~ In (EvRet t RPanic) tr) /\ alive s = true.
Proof.
  intros O X.
  assert (Y : Calm s /\ M tr s /\ (forall t, ~ In (EvRet t RPanic) tr) /\ no_sync_failed tr).
  { induction X as [|tr s l s' es X IH PL E].
    - split; [|split; [apply M_import|split; [intros t []|intros y _ []]]].
      assert (Y : forall t k, lget (tasks (import f)) t = Some k -> False).
      { intros t k G. cbn in G. unfold lget in G. destruct (t <? 0); [discriminate|]. now destruct (Z.to_nat t). }
      constructor; cbn [import fs forest alive]; auto; try discriminate; [constructor|intros t g j l G; now apply Y in G|intros t k j G; now apply Y in G].
    - destruct IH as (C & HM & NP & NF). destruct (calm_step _ _ _ _ C PL E) as (C' & NP' & NE1 & NE2). split; [exact C'|]. split; [eapply M_step; eauto|]. split.
      + intros t Y. apply in_app_or in Y. destruct Y as [Y|Y]; [eapply NP|eapply NP']; eauto.
      + intros y Hy Y. apply in_app_or in Y.
        assert (HY : (In (EvCall y CSync) tr \/ In (EvCall y CBg) tr) \/ (In (EvCall y CSync) es \/ In (EvCall y CBg) es)).
        { destruct Hy as [Hy|Hy]; apply in_app_or in Hy; tauto. }
        destruct HY as [HY|HY]; [|destruct Y as [Y|Y]; [|now apply (NE2 _ HY)]].
        * destruct Y as [Y|Y]; [now apply (NF _ HY)|].
          assert (exists c k, lget (tasks s) y = Some k /\ fits c k /\ (c = CSync \/ c = CBg)) as (c & k & G & FT & CC).
          { destruct HY as [HY|HY]; destruct (m_fits _ _ HM _ _ HY) as (k & G & FT); eauto 6. }
          assert (IS : is_sync k = true).
          { destruct k as [g j|g j|g j l0|g j o|g j o| |b|b|b|]; try reflexivity; cbn [fits] in FT; [destruct CC; subst c; destruct g; contradiction..|destruct CC; subst c; discriminate|].
            exfalso. destruct l as [c0|t x]; cbn [step] in E.
            - injection E as E. apply lget_range in G. destruct (call_shape _ _ _ _ E) as (k & _ & _ & [[-> _]|(r & -> & _)]); cbn [In] in Y.
              + destruct Y as [Y|[]]. discriminate.
              + destruct Y as [Y|[Y|[]]]; [discriminate|]. injection Y as Y _. lia.
            - destruct (step_shape _ _ _ _ _ E) as (k & k' & G' & ND & _ & _ & [[-> _]|(r & -> & _)]); [destruct Y|]. destruct Y as [Y|[]]. injection Y as -> _. congruence. }
          exact (NE1 _ _ G IS Y).
        * apply (m_ret _ _ HM) in Y. apply lget_range in Y. destruct l as [c|t x]; cbn [step] in E.
          -- injection E as E. destruct (call_shape _ _ _ _ E) as (k & _ & _ & [[-> _]|(r & -> & _)]); cbn [In] in HY; intuition (try discriminate);
               match goal with Q : EvCall _ _ = EvCall _ _ |- _ => injection Q as Q _; lia end.
          -- destruct (step_shape _ _ _ _ _ E) as (k & k' & _ & _ & _ & _ & [[-> _]|(r & -> & _)]); cbn [In] in HY; intuition discriminate. }
  destruct Y as (C & _ & NP & NF). split; [exact NF|]. split; [exact NP|apply C].
Qed.

(** ** What is not promised by the code *)

Definition st1 (t : Z) : lab := LStep t IOk.
Fixpoint times (n : nat) (l : lab) : list lab := match n with O => [] | S n => l :: times n l end.

(** The promise as a whole: every execution, every write completed before a sync
    that returned success. *)
Definition sync_promise : Prop :=
  forall f ls1 ls2 s1 tr1 s2 tr2 y i w, sorted_ids f -> steps (import f) ls1 = Some (s1, tr1) ->
    steps s1 (LCall CSync :: ls2) = Some (s2, tr2) -> y = zlen (tasks s1) -> In (EvRet y ROk) tr2 ->
    (forall t, ~ In (EvCall t (CDestroy i)) (tr1 ++ tr2)) -> wrote tr1 i w -> on_disk s2 i w.

(** A write that was begun before a sync and gets its transaction after it: the
    next sync does nothing.  No two syncs overlap and none fails. *)
Definition late_write : list lab :=
  LCall (CWrite 0) :: times 3 (st1 0) ++ LCall CSync :: times 3 (st1 1) ++ times 2 (st1 0).
Theorem C26_late_write_refuted : exists s1 tr1 s2, steps (import [(0, [])]) late_write = Some (s1, tr1) /\
  wrote tr1 0 0 /\ In (EvRet 1 ROk) tr1 /\ step s1 (LCall CSync) = Some (s2, [EvCall 2 CSync; EvRet 2 ROk]) /\ ~ on_disk s2 0 0.
Proof.
  do 3 eexists. split; [vm_compute; reflexivity|]. split; [split; vm_compute; tauto|]. split; [vm_compute; tauto|]. split; [vm_compute; reflexivity|].
  intros (l & Hl & Hw). vm_compute in Hl. destruct Hl as [[= <-]|[]]. destruct Hw.
Qed.

(** A sync that is asked for while another one is waiting returns at once. *)
Definition two_syncs : list lab := LCall (CWrite 0) :: times 5 (st1 0) ++ [LCall CSync].
Theorem C26_overlapping_syncs_refuted : exists s1 tr1 s2, steps (import [(0, [])]) two_syncs = Some (s1, tr1) /\
  wrote tr1 0 0 /\ step s1 (LCall CSync) = Some (s2, [EvCall 2 CSync; EvRet 2 ROk]) /\ ~ on_disk s2 0 0.
Proof.
  do 3 eexists. split; [vm_compute; reflexivity|]. split; [split; vm_compute; tauto|]. split; [vm_compute; reflexivity|].
  intros (l & Hl & Hw). vm_compute in Hl. destruct Hl as [[= <-]|[]]. destruct Hw.
Qed.

(** After a sync that failed, the next one claims success without doing anything. *)
Definition failed_sync : list lab := LCall (CWrite 0) :: times 5 (st1 0) ++ [LCall CSync; st1 1; LStep 1 IFail].
Theorem C26_after_failure_refuted : exists s1 tr1 s2, steps (import [(0, [])]) failed_sync = Some (s1, tr1) /\
  wrote tr1 0 0 /\ In (EvRet 1 RErr) tr1 /\ step s1 (LCall CSync) = Some (s2, [EvCall 2 CSync; EvRet 2 ROk]) /\ ~ on_disk s2 0 0.
Proof.
  do 3 eexists. split; [vm_compute; reflexivity|]. split; [split; vm_compute; tauto|]. split; [vm_compute; tauto|]. split; [vm_compute; reflexivity|].
  intros (l & Hl & Hw). vm_compute in Hl. destruct Hl as [[= <-]|[]]. destruct Hw.
Qed.

(** So the promise does not hold. *)
Theorem C26_sync_promise_refuted : ~ sync_promise.
Proof.
  intros H. destruct C26_overlapping_syncs_refuted as (s1 & tr1 & s2 & E & W & ES & ND). apply ND.
  refine (H [(0, [])] two_syncs [] s1 tr1 s2 [EvCall 2 CSync; EvRet 2 ROk] 2 0 0 _ E _ _ _ _ W).
  - repeat constructor.
  - cbn [steps]. rewrite ES. reflexivity.
  - vm_compute in E. injection E as <- <-. reflexivity.
  - right. now left.
  - intros t Y. apply in_app_or in Y. vm_compute in E. injection E as _ <-. cbn [In] in Y. intuition discriminate.
Qed.

(** Two tasks open a data set for the first time at once: each gets its own
    copy.  Both writes succeed, the sync succeeds, and the second write is lost:
    no later read sees it. *)
Definition two_opens : list lab :=
  [LCall (CWrite 0); LCall (CWrite 0); st1 0; st1 1] ++ times 4 (st1 0) ++ times 4 (st1 1) ++
  LCall CSync :: times 3 (st1 2) ++ LCall (CRead 0) :: times 2 (st1 3).
Theorem C70_two_opens_refuted : exists s tr, steps (import [(0, [])]) two_opens = Some (s, tr) /\
  wrote tr 0 0 /\ wrote tr 0 1 /\ In (EvRet 2 ROk) tr /\ disk s = [(0, [0])] /\ In (EvRet 3 (RLog [0])) tr.
Proof.
  do 2 eexists. split; [vm_compute; reflexivity|]. split; [split; vm_compute; tauto|]. split; [split; vm_compute; tauto|]. split; [vm_compute; tauto|].
  split; [reflexivity|]. vm_compute. tauto.
Qed.

(** A data set is destroyed while another task is opening it (to read a property,
    say): the background sync fails and panics, and from then on no sync ever
    works. *)
Definition destroy_race : list lab :=
  LCall (CRead 1) :: times 2 (st1 0) ++ LCall (CDestroy 1) :: times 5 (st1 1) ++ [st1 0] ++ LCall CBg :: times 2 (st1 2) ++
  LCall (CWrite 0) :: times 5 (st1 3).
Theorem C70_destroy_race_refuted : exists s1 tr1 s2, steps (import [(0, []); (1, [-1])]) destroy_race = Some (s1, tr1) /\
  In (EvRet 1 ROk) tr1 /\ In (EvRet 2 RErr) tr1 /\ wrote tr1 0 3 /\ alive s1 = false /\
  step s1 (LCall CSync) = Some (s2, [EvCall 4 CSync; EvRet 4 RErr]) /\ ~ on_disk s2 0 3.
Proof.
  do 3 eexists. split; [vm_compute; reflexivity|]. split; [vm_compute; tauto|]. split; [vm_compute; tauto|]. split; [split; vm_compute; tauto|].
  split; [reflexivity|]. split; [vm_compute; reflexivity|].
  intros (l & Hl & Hw). vm_compute in Hl. destruct Hl as [[= <-]|[[=]|[]]]. destruct Hw.
Qed.

(** The same race, then a new data set is created: it is given the destroyed data
    set's id and contents. *)
Definition reborn : list lab :=
  LCall (CRead 1) :: times 2 (st1 0) ++ LCall (CDestroy 1) :: times 5 (st1 1) ++ [st1 0] ++ LCall CCreate :: times 4 (st1 2) ++ LCall (CRead 1) :: times 2 (st1 3).
Theorem C70_reborn_refuted : exists s tr, steps (import [(0, []); (1, [-1; -2])]) reborn = Some (s, tr) /\
  In (EvRet 1 ROk) tr /\ In (EvRet 2 (RId 1)) tr /\ In (EvRet 3 (RLog [-1; -2; 2])) tr.
Proof. do 2 eexists. split; [vm_compute; reflexivity|]. split; [vm_compute; tauto|]. split; vm_compute; tauto. Qed.

(** Two tasks destroy the same data set: one of them panics. *)
Definition two_destroys : list lab := [LCall (CDestroy 1); LCall (CDestroy 1)] ++ times 4 (st1 0) ++ times 2 (st1 1) ++ [st1 0; st1 1].
Theorem C70_two_destroys_refuted : exists s tr, steps (import [(0, []); (1, [])]) two_destroys = Some (s, tr) /\
  In (EvRet 0 ROk) tr /\ In (EvRet 1 RPanic) tr.
Proof. do 2 eexists. split; [vm_compute; reflexivity|]. split; vm_compute; tauto. Qed.

(** The hypotheses are met: a creation, writes to two data sets that wait for a
    sync's lock, two syncs, a background sync and a destruction. *)
Fixpoint checked (P : st -> lab -> bool) (s : st) (ls : list lab) : option (st * list ev) :=
  match ls with
  | [] => Some (s, [])
  | l :: ls => if P s l then let* (s, e) := step s l in let* (s, es) := checked P s ls in Some (s, e ++ es) else None
  end.

Lemma checked_exec (Pb : st -> lab -> bool) (P : st -> lab -> Prop) : (forall s l, Pb s l = true -> P s l) ->
  forall ls s0 s tr, checked Pb s0 ls = Some (s, tr) -> exec P s0 tr s.
Proof.
  intros HP ls. assert (X : forall s0 tr0 s1, exec P s0 tr0 s1 -> forall s tr, checked Pb s1 ls = Some (s, tr) -> exec P s0 (tr0 ++ tr) s).
  { induction ls as [|l ls IH]; intros s0 tr0 s1 X s tr E; cbn [checked] in E.
    - injection E as <- <-. now rewrite app_nil_r.
    - destruct (Pb s1 l) eqn:B; [|discriminate]. destruct (step s1 l) as [[s2 e]|] eqn:ES; [|discriminate]. cbn [obind] in E.
      destruct (checked Pb s2 ls) as [[s3 es]|] eqn:EC; [|discriminate]. cbn [obind] in E. injection E as <- <-. rewrite app_assoc.
      eapply IH; [|exact EC]. econstructor; eauto. }
  intros s0 s tr E. exact (X s0 [] s0 (e_nil P s0) s tr E).
Qed.

Definition all_tasks (p : Z -> task -> bool) (s : st) : bool := forallb (fun t => match lget (tasks s) t with Some k => p t k | None => true end) (zrange 0 (zlen (tasks s))).

Lemma all_tasks_ok p s : all_tasks p s = true -> forall t k, lget (tasks s) t = Some k -> p t k = true.
Proof.
  intros E t k G. unfold all_tasks in E. rewrite forallb_forall in E. specialize (E t). rewrite G in E. apply E.
  apply in_zrange. now apply lget_range in G.
Qed.

Definition ex_ok (s : st) (l : lab) : bool :=
  match l with
  | LCall (CDestroy j) => negb (j =? 0)
  | LCall CSync | LCall CBg => negb (existsb is_sync (tasks s))
  | LCall _ => true
  | LStep t x => match x with IOk => true | _ => false end &&
    match lget (tasks s) t with
    | Some (TOpen _ j) => negb (j =? 0) || negb (existsb (opens 0) (tasks s))
    | Some (TSync _) => all_tasks (fun t' k => negb (t' <? t) || negb (waits k)) s
    | Some (TIn GDestroy j _) => all_tasks (fun t' k => (t' =? t) || negb (opens j k) && negb (destroys j k)) s
    | _ => true
    end
  end.

Lemma ex_ok_sound s l : ex_ok s l = true -> (P0 0 s l /\ orderly s l) /\ calm s l.
Proof.
  unfold ex_ok, P0, opens_alone, keeps, orderly, calm. destruct l as [c|t x].
  - destruct c; cbn; intros E; repeat split; try discriminate; try (apply negb_true_iff in E; try exact E).
    intros [= ->]. rewrite Z.eqb_refl in E. discriminate.
  - intros E. apply andb_prop in E. destruct E as [E1 E2]. destruct x; try discriminate. split; [split; [split|]|split]; try discriminate; try reflexivity.
    + destruct (lget (tasks s) t) as [[]|]; try exact Logic.I. intros ->. cbn [Z.eqb negb orb] in E2. now apply negb_true_iff in E2.
    + destruct (lget (tasks s) t) as [[]|]; try exact Logic.I. intros t' k LT G. pose proof (all_tasks_ok _ _ E2 _ _ G) as A. cbn beta in A.
      apply Z.ltb_lt in LT. rewrite LT in A. cbn [negb orb] in A. now apply negb_true_iff in A.
    + destruct (lget (tasks s) t) as [[| | | |[] ? ?| | | | |]|]; try exact Logic.I. intros t' k N G. pose proof (all_tasks_ok _ _ E2 _ _ G) as A. cbn beta in A.
      apply Z.eqb_neq in N. rewrite N in A. cbn [orb] in A. apply andb_prop in A. destruct A as [A B]. split; now apply negb_true_iff.
Qed.

Definition busy : list lab :=
  LCall CCreate :: times 6 (st1 0) ++ LCall (CWrite 1) :: times 2 (st1 1) ++ LCall (CWrite 0) :: times 5 (st1 2) ++ st1 1 ::
  LCall (CRead 0) :: times 2 (st1 3).
Example C26_example : exists s1 tr1 s2 tr2 s3,
  checked ex_ok (import [(0, [])]) busy = Some (s1, tr1) /\ ex_ok s1 (LCall CSync) = true /\
  step s1 (LCall CSync) = Some (s2, [EvCall 4 CSync]) /\
  checked ex_ok s2 [LCall (CWrite 0); st1 4; st1 5; st1 4; st1 4; st1 5; st1 5] = Some (s3, tr2) /\
  no_sync_failed (tr1 ++ [EvCall 4 CSync] ++ tr2) /\ In (EvRet 4 ROk) ([EvCall 4 CSync] ++ tr2) /\ wrote tr1 0 2 /\ on_disk s3 0 2.
Proof.
  do 5 eexists. split; [vm_compute; reflexivity|]. split; [vm_compute; reflexivity|]. split; [vm_compute; reflexivity|]. split; [vm_compute; reflexivity|].
  split; [|split; [vm_compute; tauto|split; [split; vm_compute; tauto|]]].
  - intros y _ Y. vm_compute in Y. intuition discriminate.
  - eexists. split; [left; reflexivity|]. vm_compute. tauto.
Qed.

Definition busy2 : list lab := busy ++ [LCall (CRead 0); st1 4; st1 4; LCall (CDestroy 1)] ++ times 3 (st1 5) ++ LCall CBg :: times 3 (st1 6).
Example C70_example : exists s tr, checked ex_ok (import [(0, [])]) busy2 = Some (s, tr) /\
  exec calm (import [(0, [])]) tr s /\ In (EvRet 4 (RLog [2])) tr /\ disk s = [(0, [2])].
Proof.
  do 2 eexists. split; [vm_compute; reflexivity|]. split; [|split; [vm_compute; tauto|reflexivity]].
  apply (checked_exec ex_ok calm) with (ls := busy2); [intros s l E; now apply ex_ok_sound in E|vm_compute; reflexivity].
Qed.

Print Assumptions C26_running_sync_is_durable.
Print Assumptions C26_sync_is_durable_partial.
Print Assumptions C26_late_write_refuted.
Print Assumptions C26_overlapping_syncs_refuted.
Print Assumptions C26_after_failure_refuted.
Print Assumptions C26_sync_promise_refuted.
Print Assumptions C70_reads_see_writes_partial.
Print Assumptions C70_syncs_succeed_partial.
Print Assumptions C70_two_opens_refuted.
Print Assumptions C70_destroy_race_refuted.
Print Assumptions C70_reborn_refuted.
Print Assumptions C70_two_destroys_refuted.
