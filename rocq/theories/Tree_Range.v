(** * The B-tree: range queries *)
From Verif Require Import Common ZMap Tree_Model Tree_Inv Tree_Proofs.
From Coq Require Import Permutation.

Section Range.
Context {V : Type}.
Notation elem := (@elem V).
Notation node := (@node V).
Notation tree := (@tree V).
Context (lim : limits) (mi ml : nat).
Context (HL : lims_ok lim mi ml).
Notation good := (@good V lim mi ml).
Notation egood := (@egood V lim mi ml).
Notation len_ok := (@len_ok V lim mi ml).

Definition inr (s e : bound) (p : Z * V) : bool := above s (fst p) && below e (fst p).
Definition F (s e : bound) (l : list (Z * V)) : list (Z * V) := filter (inr s e) l.

Lemma F_app s e a b : F s e (a ++ b) = F s e a ++ F s e b.
Proof. apply filter_app. Qed.
Lemma F_nil s e l : Forall (fun p => inr s e p = false) l -> F s e l = [].
Proof. apply filter_none. Qed.
Lemma F_nil_inv s e l : F s e l = [] -> Forall (fun p => inr s e p = false) l.
Proof.
  induction l as [|p l IH]; [constructor|]. unfold F; cbn. destruct (inr s e p) eqn:E; [discriminate|].
  intros H. constructor; [exact E|]. now apply IH.
Qed.

Definition res_ok (s e : bound) (all v : list (Z * V)) (c : option bound) : Prop :=
  match c with
  | None => F s e all = v
  | Some b => v <> [] /\ F s e all = v ++ F b e all /\ range_panics b e = false /\
              (forall k, above b k = true -> above s k = true)
  end.

Definition lastk (l : list (Z * V)) (k : Z) : Prop :=
  Forall (fun p => fst p <= k) l /\ exists p, In p l /\ fst p = k.
Lemma leaf_last_ok (l : list (Z * V)) : zm_ok l -> l <> [] -> exists k, leaf_last l = Some k /\ lastk l k.
Proof.
  intros Z N. rewrite leaf_last_spec. destruct l as [|p l] using rev_ind; [congruence|]. clear IHl.
  rewrite rev_app_distr. cbn. exists (fst p). split; [reflexivity|]. apply zm_ok_app in Z. destruct Z as (_&_&Z). split.
  - apply Forall_app. split; [|repeat constructor; lia]. apply Forall_forall. intros q I.
    specialize (Z q p I (or_introl eq_refl)). lia.
  - exists p. split; [apply in_or_app; right; now left|reflexivity].
Qed.

Lemma F_firstkey s e (l : list (Z * V)) : zm_ok l -> l <> [] -> Forall (fun p => above s (fst p) = true) l ->
  F s e l = [] -> Forall (fun p => below e (fst p) = false) l.
Proof.
  intros Z N A H. apply F_nil_inv in H. rewrite Forall_forall in *. intros p I. specialize (H p I). specialize (A p I).
  unfold inr in H. rewrite A in H. exact H.
Qed.

Definition beyond (e : bound) (k : Z) : bool := match e with Inc i | Exc i => negb (i <=? k) | Unb => true end.

Lemma leaf_range_ok (l : list (Z * V)) s e : l <> [] -> zm_ok l -> range_panics s e = false ->
  exists k, leaf_last l = Some k /\ lastk l k /\ leaf_range l s e = Some (F s e l, beyond e k).
Proof.
  intros N Z P. destruct (leaf_last_ok l Z N) as (k & Hk & Lk). exists k. split; [exact Hk|]. split; [exact Lk|].
  unfold leaf_range. rewrite Hk, P. reflexivity.
Qed.

Lemma below_mono e a b : a <= b -> below e b = true -> below e a = true.
Proof. destruct e; cbn; lia. Qed.
Lemma above_mono s a b : a <= b -> above s a = true -> above s b = true.
Proof. destruct s; cbn; lia. Qed.

(** the first key of a node bounds its contents *)
Lemma n_key_ok h lo hi ts te n : good h lo hi ts te n -> (1 <= n_len n)%nat ->
  exists k, n_key n = Some k /\ lo <= k /\ Forall (fun p => k <= fst p) (flat h n).
Proof.
  intros G L. destruct h, n as [l|cs]; try (cbn in G; tauto).
  - destruct l as [|[k v] l]; [cbn in L; lia|]. exists k. split; [reflexivity|]. destruct G as [Z F'].
    split; [inversion F'; subst; cbn in *; tauto|]. cbn [flat]. apply zm_ok_cons in Z. destruct Z as [_ Z].
    constructor; [cbn; lia|]. eapply Forall_impl; [|exact Z]. cbn; intros; lia.
  - destruct cs as [|e r]; [cbn in L; lia|]. exists (e_key e). split; [reflexivity|]. apply good_S in G. destruct G as [C _].
    split; [apply C|]. assert (C' : chain (egood h) (e_key e) hi (e :: r)) by (destruct C as (X&Y&Z); split; [lia|]; split; assumption).
    apply chain_flats in C'. eapply Forall_impl; [|exact C']. intros p [H _]. exact H.
Qed.

Lemma pos_start h lo hi cs (s : bound) : chain (egood h) lo hi cs -> cs <> [] ->
  exists l c r, cs = l ++ c :: r /\ (match s with Inc k | Exc k => position cs k | Unb => O end) = length l /\
    Forall (fun p => above s (fst p) = false) (flats h l) /\ Forall (fun p => above s (fst p) = true) (flats h r).
Proof.
  intros C N. assert (Z0 : forall k, exists l c r, cs = l ++ c :: r /\ position cs k = length l /\ Forall (fun p : Z * V => fst p < k) (flats h l) /\ Forall (fun p : Z * V => k < fst p) (flats h r)).
  { intros k. destruct (position_split _ _ _ _ k C N) as (l & c & r & -> & P & A & B). exists l, c, r.
    split; [reflexivity|]. split; [exact P|]. exact (around lim mi ml _ _ _ _ _ _ _ C A B). }
  destruct s as [k|k|].
  - destruct (Z0 k) as (l & c & r & E & P & A & B). exists l, c, r. split; [exact E|]. split; [exact P|].
    split; [eapply Forall_impl; [|exact A]|eapply Forall_impl; [|exact B]]; cbn; intros; lia.
  - destruct (Z0 k) as (l & c & r & E & P & A & B). exists l, c, r. split; [exact E|]. split; [exact P|].
    split; [eapply Forall_impl; [|exact A]|eapply Forall_impl; [|exact B]]; cbn; intros; lia.
  - destruct cs as [|c r]; [congruence|]. exists [], c, r. repeat split; [constructor|]. apply Forall_forall. reflexivity.
Qed.


Lemma get_range_r_spec fuel : forall h lo hi ts te n next rest s e,
  good h lo hi ts te n -> (len_ok n \/ (next = None /\ rest = [] /\ nonempty n)) ->
  zm_ok (flat h n ++ rest) -> range_panics s e = false -> Forall (fun p => above s (fst p) = true) rest ->
  (h + 1 <= fuel)%nat -> (Forall (fun p => above s (fst p) = true) (flat h n) \/ (2 * h + 1 <= fuel)%nat) ->
  match next with
  | None => F s e rest = [] \/ Forall (fun p => above s (fst p) = true) (flat h n)
  | Some ng => exists hn lo' hi' ts' te' rest2 k, good hn lo' hi' ts' te' ng /\ len_ok ng /\
      rest = flat hn ng ++ rest2 /\ n_key ng = Some k /\ below e k = true /\
      Forall (fun p => fst p < k) (flat h n) /\ Forall (fun p => k <= fst p) rest /\
      (Forall (fun p => above s (fst p) = true) (flat h n) \/ (h + 1 + hn + 1 <= fuel)%nat)
  end ->
  exists v c, get_range_r fuel n next s e = Some (v, c) /\ res_ok s e (flat h n ++ rest) v c.
Proof.
  induction fuel as [|fuel IH]; intros h lo hi ts te n next rest s e G NE Z P Ab Fu Fd Nx; [lia|].
  cbn [get_range_r]. destruct n as [l|cs].
  - destruct h; [|destruct G]. cbn [flat] in *. destruct G as [Zl Fl].
    destruct l as [|p0 l0].
    { destruct NE as [NE|(-> & -> & _)]. { destruct HL as (_&M&_). cbn in NE. lia. }
      exists [], None. split; reflexivity. }
    set (l := p0 :: l0) in *. assert (Nl : l <> []) by discriminate. clearbody l. clear p0 l0.
    destruct (leaf_range_ok l s e Nl Zl P) as (k & Hk & [Lk1 Lk2] & ->).
    assert (Beyond : beyond e k = false -> F s e rest = []).
    { intros B. apply F_nil. rewrite Forall_forall. intros q Q. apply zm_ok_app in Z. destruct Z as (_&_&Z).
      destruct Lk2 as (p & Ip & <-). specialize (Z p q Ip Q). unfold inr. clear - Z B. destruct e; cbn in *; try lia. }
    destruct (F s e l) as [|v0 vs] eqn:Ev.
    + destruct (beyond e k) eqn:By.
      * (* every key of the leaf is below the start *)
        assert (Hs : Forall (fun p => above s (fst p) = false) l).
        { apply F_nil_inv in Ev. rewrite Forall_forall in *. intros p I. specialize (Ev p I). unfold inr in Ev.
          assert (below e (fst p) = true).
          { specialize (Lk1 p I). clear - Lk1 By. destruct e; cbn in *; lia. }
          rewrite H in Ev. now rewrite andb_true_r in Ev. }
        destruct next as [ng|].
        -- destruct Nx as (hn & lo' & hi' & ts' & te' & rest2 & kn & Gn & Ln & -> & Kn & Bn & Fk & Fk2 & Fu2).
           assert (Zn : zm_ok (flat hn ng ++ rest2)) by (apply zm_ok_app in Z; tauto).
           apply Forall_app in Ab. destruct Ab as [Ab1 Ab2].
           destruct Fu2 as [Fu2|Fu2].
           { exfalso. destruct Lk2 as (p & Ip & _). rewrite Forall_forall in Fu2, Hs. specialize (Fu2 p Ip). specialize (Hs p Ip). congruence. }
           destruct (IH hn lo' hi' ts' te' ng None rest2 s e Gn (or_introl Ln) Zn P Ab2 ltac:(cbn in Fu2; lia) (or_introl Ab1) (or_intror Ab1)) as (v & c & R & Ok).
           exists v, c. split; [exact R|].
           assert (El : forall b, (forall x, above b x = true -> above s x = true) -> F b e l = []).
           { intros b Hb. apply F_nil. rewrite Forall_forall in *. intros p I. specialize (Hs p I). specialize (Hb (fst p)).
             unfold inr. destruct (above b (fst p)); [|reflexivity]. rewrite Hb in Hs by reflexivity. discriminate. }
           destruct c as [b|]; cbn [res_ok] in *.
           ++ destruct Ok as (O1 & O2 & O3 & O4). split; [exact O1|]. rewrite !(F_app _ _ l), !El by auto. auto.
           ++ rewrite F_app, El by auto. exact Ok.
        -- exists [], None. split; [reflexivity|]. cbn [res_ok]. rewrite F_app, Ev. cbn [app].
           destruct Nx as [Nx|Nx]; [exact Nx|]. exfalso. destruct Lk2 as (p & Ip & _). rewrite Forall_forall in Nx, Hs.
           specialize (Nx p Ip). specialize (Hs p Ip). congruence.
      * exists [], None. split; [reflexivity|]. cbn [res_ok]. rewrite F_app, Ev, Beyond by reflexivity. reflexivity.
    + assert (V0 : In v0 l /\ inr s e v0 = true) by (apply filter_In; fold (F s e l); rewrite Ev; now left).
      destruct V0 as [V0 V1]. assert (As : above s (fst v0) = true) by (unfold inr in V1; apply andb_prop in V1; tauto).
      destruct (beyond e k) eqn:By.
      * destruct next as [ng|].
        -- destruct Nx as (hn & lo' & hi' & ts' & te' & rest2 & kn & Gn & Ln & -> & Kn & Bn & Fk & Fk2 & Fu2).
           rewrite Kn. exists (v0 :: vs), (Some (Inc kn)). split; [reflexivity|]. cbn [res_ok].
           split; [discriminate|]. rewrite !(F_app _ _ l), Ev.
           assert (E1 : F (Inc kn) e l = []).
           { apply F_nil. eapply Forall_impl; [|exact Fk]. intros p Hp. cbn beta in Hp. unfold inr. cbn [above]. destruct (Z.leb_spec kn (fst p)); [lia|reflexivity]. }
           rewrite E1. cbn [app]. split; [|split].
           ++ f_equal. f_equal. unfold F. apply filter_ext_in. intros p I. rewrite Forall_forall in Ab, Fk2. specialize (Ab p I).
              specialize (Fk2 p I). unfold inr. rewrite Ab. cbn. destruct (Z.leb_spec kn (fst p)); [reflexivity|lia].
           ++ clear - Bn. destruct e; cbn in *; lia.
           ++ intros x Hx. eapply above_mono; [|exact As]. cbn in Hx. rewrite Forall_forall in Fk. specialize (Fk v0 V0). lia.
        -- rewrite Hk. exists (v0 :: vs), (Some (Exc k)). split; [reflexivity|]. cbn [res_ok].
           split; [discriminate|]. rewrite !(F_app _ _ l), Ev.
           assert (E1 : F (Exc k) e l = []).
           { apply F_nil. eapply Forall_impl; [|exact Lk1]. intros p Hp. cbn beta in Hp. unfold inr. cbn [above]. destruct (Z.ltb_spec k (fst p)); [lia|reflexivity]. }
           rewrite E1. cbn [app]. split; [|split].
           ++ f_equal. f_equal. unfold F. apply filter_ext_in. intros p I. rewrite Forall_forall in Ab. specialize (Ab p I).
              unfold inr. rewrite Ab. cbn. destruct Lk2 as (q & Iq & <-). apply zm_ok_app in Z. destruct Z as (_&_&Z).
              specialize (Z q p Iq I). destruct (Z.ltb_spec (fst q) (fst p)); [reflexivity|lia].
           ++ clear - By. destruct e; cbn in *; lia.
           ++ intros x Hx. eapply above_mono; [|exact As]. cbn in Hx. rewrite Forall_forall in Lk1. specialize (Lk1 v0 V0). lia.
      * exists (v0 :: vs), None. split; [reflexivity|]. cbn [res_ok]. rewrite F_app, Ev, Beyond by reflexivity. apply app_nil_r.
  - destruct h; [destruct G|]. assert (G' := G). apply good_S in G. destruct G as [C FT].
    assert (N : cs <> []).
    { destruct NE as [NE|(_&_&NE)]; [apply (len_ok_nonempty lim mi ml HL) in NE|]; destruct cs; [destruct NE|discriminate|destruct NE|discriminate]. }
    destruct (pos_start h lo hi cs s C N) as (l & c & r & -> & Pos & Fl & Fr). rewrite Pos, nth_error_mid.
    assert (C0 := C). apply chain_mid in C. destruct C as (_ & _ & (E1&E2&E3&E4&E5) & Cr).
    rewrite flat_Int, flats_app, flats_cons in Z, Nx, Fd |- *.
    (* the result for the child carries over *)
    assert (Lift : forall R, (exists v o, R = Some (v, o) /\ res_ok s e (flat h (e_node c) ++ flats h r ++ rest) v o) ->
                    exists v o, R = Some (v, o) /\ res_ok s e ((flats h l ++ flat h (e_node c) ++ flats h r) ++ rest) v o).
    { intros R (v & o & -> & Ok). exists v, o. split; [reflexivity|].
      assert (El : forall b, (forall x, above b x = true -> above s x = true) -> F b e (flats h l) = []).
      { intros b Hb. apply F_nil. rewrite Forall_forall in *. intros p I. specialize (Fl p I). specialize (Hb (fst p)).
        unfold inr. destruct (above b (fst p)); [|reflexivity]. rewrite Hb in Fl by reflexivity. discriminate. }
      rewrite <- !app_assoc. destruct o as [b|]; cbn [res_ok] in *.
      - destruct Ok as (O1 & O2 & O3 & O4). split; [exact O1|]. rewrite !(F_app _ _ (flats h l)), !El by auto. auto.
      - rewrite F_app, El by auto. exact Ok. }
    assert (Zc : zm_ok (flat h (e_node c) ++ flats h r ++ rest)).
    { rewrite <- !app_assoc in Z. apply zm_ok_app in Z. tauto. }
    assert (Abc : Forall (fun p => above s (fst p) = true) (flats h r ++ rest)) by (apply Forall_app; split; assumption).
    assert (Fdc' : Forall (fun p => above s (fst p) = true) (flat h (e_node c)) \/ (2 * h + 2 <= fuel)%nat).
    { destruct Fd as [Fd|Fd]; [left|right; lia]. apply Forall_app in Fd. destruct Fd as [_ Fd]. apply Forall_app in Fd. tauto. }
    assert (Fdc : Forall (fun p => above s (fst p) = true) (flat h (e_node c)) \/ (2 * h + 1 <= fuel)%nat).
    { destruct Fdc'; [left; assumption|right; lia]. }
    destruct r as [|c' r].
    + assert (NN : nth_error (l ++ [c]) (S (length l)) = None) by (apply nth_error_None; rewrite app_length; cbn; lia).
      rewrite NN. apply Lift. cbn [flats flat_map app] in *.
      eapply IH; [exact E5|left; exact E3|exact Zc|exact P|exact Abc|lia|exact Fdc|].
      destruct next as [ng|].
      * destruct Nx as (hn & lo' & hi' & ts' & te' & rest2 & kn & Gn & Ln & -> & Kn & Bn & Fk & Fk2 & Fu2).
        exists hn, lo', hi', ts', te', rest2, kn. rewrite app_nil_r in Fk. apply Forall_app in Fk. destruct Fk as [_ Fk].
        repeat (split; [first [assumption|reflexivity]|]).
        destruct Fu2 as [Fu2|Fu2]; [left|right; lia]. apply Forall_app in Fu2. destruct Fu2 as [_ Fu2]. rewrite app_nil_r in Fu2. exact Fu2.
      * destruct Nx as [Nx|Nx]; [left; exact Nx|right]. rewrite app_nil_r in Nx. apply Forall_app in Nx. tauto.
    + assert (NN : nth_error (l ++ c :: c' :: r) (S (length l)) = Some c').
      { rewrite nth_error_app2 by lia. replace (S (length l) - length l)%nat with 1%nat by lia. reflexivity. }
      rewrite NN. destruct Cr as (X & (Y1&Y2&Y3&Y4&Y5) & Cr').
      assert (Lp : (1 <= n_len (e_node c'))%nat) by (apply (len_ok_pos lim mi ml); [apply HL|apply HL|exact Y3]).
      destruct (n_key_ok _ _ _ _ _ _ Y5 Lp) as (kn & Kn & Kn1 & Kn2). rewrite Kn.
      assert (Fk2 : Forall (fun p => kn <= fst p) (flats h (c' :: r) ++ rest)).
      { (* the first key of c' is the smallest *)
        rewrite flats_cons, <- app_assoc. apply Forall_app. split; [exact Kn2|].
        assert (NF : flat h (e_node c') <> []) by (eapply good_flat_nonempty; eauto).
        destruct (flat h (e_node c')) as [|q qs] eqn:Eq; [congruence|]. inversion Kn2; subst.
        rewrite flats_cons, Eq, <- app_assoc in Zc. apply zm_ok_app in Zc. destruct Zc as (_ & Zc & _). apply zm_ok_app in Zc. destruct Zc as (_&_&Zc).
        rewrite Forall_forall. intros p I. specialize (Zc q p (or_introl eq_refl) I). lia. }
      assert (Fk : Forall (fun p => fst p < kn) (flat h (e_node c))).
      { apply good_flat in E5. destruct E5 as [_ E5]. eapply Forall_impl; [|exact E5]. intros p [_ H]. cbn in H. lia. }
      assert (Fout : forall k, Forall (fun p => k <= fst p) (flats h (c' :: r) ++ rest) -> below e k = false -> F s e (flats h (c' :: r) ++ rest) = []).
      { intros k H B. apply F_nil. eapply Forall_impl; [|exact H]. intros p Hp. unfold inr.
        destruct (below e (fst p)) eqn:Bp; [|apply andb_false_r]. rewrite (below_mono e k (fst p)) in B by (cbn in *; auto). discriminate. }
      apply Lift. destruct (below e (e_key c')) eqn:Bc.
      * destruct (below e kn) eqn:Bk.
        -- eapply IH; [exact E5|left; exact E3|exact Zc|exact P|exact Abc|lia|exact Fdc|].
           exists h, (e_key c'), (nextkey hi r), (e_ts c'), (e_te c'), (flats h r ++ rest), kn.
           split; [exact Y5|]. split; [exact Y3|]. split; [rewrite flats_cons, <- app_assoc; reflexivity|].
           repeat (split; [assumption|]). 
           destruct Fdc'; [left; assumption|right; lia].
        -- eapply IH; [exact E5|left; exact E3|exact Zc|exact P|exact Abc|lia|exact Fdc|]. left. eapply Fout; eauto.
      * eapply IH; [exact E5|left; exact E3|exact Zc|exact P|exact Abc|lia|exact Fdc|]. left. eapply Fout; [|exact Bc].
        eapply Forall_impl; [|exact Fk2]. cbn; intros; lia.
Qed.

Theorem get_range_spec T (t : tree) s e : tgood lim mi ml T t -> range_panics s e = false ->
  exists v c, get_range t s e = Some (v, c) /\ res_ok s e (contents t) v c.
Proof.
  unfold tgood, get_range, contents. destruct (t_root t) as [rk rs rt rp rm rn]. intros (_&G&_&_&_&N&_) P. cbn [e_node].
  destruct (get_range_r_spec (2 * t_h t + 2) _ _ _ _ _ rn None [] s e G) as (v & c & R & Ok).
  - right. auto.
  - rewrite app_nil_r. eapply good_flat; eauto.
  - exact P.
  - constructor.
  - lia.
  - right. lia.
  - left. reflexivity.
  - exists v, c. split; [exact R|]. rewrite app_nil_r in Ok. exact Ok.
Qed.

Theorem range_query_spec T (t : tree) e : tgood lim mi ml T t -> forall fuel s, range_panics s e = false ->
  (length (F s e (contents t)) < fuel)%nat ->
  range_query fuel t (Some s) e = Some (F s e (contents t)).
Proof.
  intros G. induction fuel as [|fuel IH]; intros s P L; [lia|]. cbn [range_query].
  destruct (get_range_spec T t s e G P) as (v & c & R & Ok). rewrite R.
  destruct c as [b|]; cbn [res_ok] in Ok.
  - destruct Ok as (O1 & O2 & O3 & _). destruct v as [|v0 v]; [congruence|].
    rewrite IH; [cbn [option_map]; rewrite O2; reflexivity|exact O3|].
    rewrite O2, app_length in L. cbn in L. lia.
  - rewrite Ok. destruct v; [reflexivity|]. destruct fuel; cbn; rewrite ?app_nil_r; reflexivity.
Qed.

End Range.
