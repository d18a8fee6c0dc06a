(** C106: what is sent between the client and the daemon arrives. *)
From Verif Require Import Common FSM_Model ZMap Prop_Model Forest_Model Label_Model Label_Props Rpc_Model Rpc_Props Wire_Model.

(** ** What is promised *)

(** *** Messages that can occur: every field in the range of its type

    A string is a sequence of Unicode scalar values in UTF-8; a path is any
    sequence of bytes. *)
Definition scalar (c : Z) : Prop := 0 <= c < 55296 \/ 57344 <= c < 1114112.
Definition utf8_of (c : Z) : list Z :=
  if c <? 128 then [c]
  else if c <? 2048 then [192 + c / 64; 128 + c mod 64]
  else if c <? 65536 then [224 + c / 4096; 128 + c / 64 mod 64; 128 + c mod 64]
  else [240 + c / 262144; 128 + c / 4096 mod 64; 128 + c / 64 mod 64; 128 + c mod 64].
Definition few {A} (l : list A) : Prop := zlen l < 2 ^ 32.
Definition string_ok (t : text) : Prop := few t /\ exists cs, Forall scalar cs /\ t = flat_map utf8_of cs.
Definition path_ok (t : text) : Prop := few t /\ Forall (uint 8) t.
Definition opt_ok {A} (P : A -> Prop) (o : option A) : Prop := match o with Some x => P x | None => True end.
Definition vec_ok {A} (P : A -> Prop) (l : list A) : Prop := few l /\ Forall P l.
Definition res_ok {A} (P : A -> Prop) (r : rres A) : Prop := match r with ROk x => P x | RErr e => 1 <= e <= 97 \/ e = 256 end.
Definition property_ok (p : property) : Prop :=
  match p with Atime _ => True | BaseMountpoint t | Mountpoint t | Name t => string_ok t | RecordSize n => uint 8 n end.
Definition source_ok (s : psource) : Prop := match s with SSet i => uint 8 i | _ => True end.
Definition info_ok (i : dsinfo) : Prop :=
  string_ok (di_name i) /\ vec_ok (fun x => property_ok (fst x) /\ source_ok (snd x)) (di_props i) /\ uint 64 (di_offs i).
Definition health_ok (h : whealth) : Prop := match h with WDegraded n => 1 <= n < 256 | _ => True end.
Definition leaf_ok (l : leafst) : Prop := health_ok (lf_health l) /\ path_ok (lf_path l) /\ uint 128 (lf_uuid l).
Definition mirrorst_ok (m : mirrorst) : Prop := vec_ok leaf_ok (mi_leaves m) /\ health_ok (mi_health m) /\ uint 128 (mi_uuid m).
Definition cluster_ok (c : clusterst) : Prop :=
  health_ok (cl_health c) /\ string_ok (cl_codec c) /\ vec_ok mirrorst_ok (cl_mirrors c) /\ uint 128 (cl_uuid c).
Definition status_ok (p : poolst) : Prop :=
  health_ok (ps_health p) /\ string_ok (ps_name p) /\ vec_ok cluster_ok (ps_clusters p) /\ uint 128 (ps_uuid p).
Definition any (u : unit) : Prop := True.

Definition request_ok (q : request) : Prop :=
  match q with
  | QDropCache => True
  | QFsCreate n ps | QFsSet n ps => string_ok n /\ vec_ok property_ok ps
  | QFsDestroy n | QFsMount n | QFsUnmount n _ | QPoolClean n | QPoolStatus n => string_ok n
  | QFsList n ps o => string_ok n /\ few ps /\ opt_ok (uint 64) o
  | QFsStat n ps => string_ok n /\ few ps
  | QPoolFault p d => string_ok p /\ uint 128 d
  | QPoolAttach p m l => string_ok p /\ uint 128 m /\ path_ok l
  | QPoolList p o => opt_ok string_ok p /\ opt_ok (uint 64) o
  end.
Definition response_ok (p : response) : Prop :=
  match p with
  | PDropCache r | PFsDestroy r | PFsMount r | PFsSet r | PFsUnmount r | PPoolClean r | PPoolFault r | PPoolAttach r => res_ok any r
  | PFsCreate r => res_ok (uint 64) r
  | PFsList r => res_ok (vec_ok info_ok) r
  | PFsStat r => res_ok info_ok r
  | PPoolList r => res_ok (vec_ok (fun x => string_ok (fst x) /\ uint 64 (snd x))) r
  | PPoolStatus r => res_ok status_ok r
  end.

(** *** How long they are, in bytes *)
Definition total {A} (f : A -> Z) (l : list A) : Z := fold_right (fun x n => f x + n) 0 l.
Definition string_sz (t : text) : Z := 4 + zlen t.
Definition property_sz (p : property) : Z :=
  match p with Atime _ | RecordSize _ => 5 | BaseMountpoint t | Mountpoint t | Name t => 8 + zlen t end.
Definition source_sz (s : psource) : Z := match s with SSet _ => 5 | _ => 4 end.
Definition info_sz (i : dsinfo) : Z := 16 + zlen (di_name i) + total (fun x => property_sz (fst x) + source_sz (snd x)) (di_props i).
Definition health_sz (h : whealth) : Z := match h with WOnline => 4 | WDegraded _ => 5 | WFaulted _ => 8 end.
Definition leaf_sz (l : leafst) : Z := 20 + health_sz (lf_health l) + zlen (lf_path l).
Definition mirror_sz (m : mirrorst) : Z := 20 + health_sz (mi_health m) + total leaf_sz (mi_leaves m).
Definition cluster_sz (c : clusterst) : Z := 24 + health_sz (cl_health c) + zlen (cl_codec c) + total mirror_sz (cl_mirrors c).
Definition status_sz (p : poolst) : Z := 24 + health_sz (ps_health p) + zlen (ps_name p) + total cluster_sz (ps_clusters p).
Definition opt_sz {A} (f : A -> Z) (o : option A) : Z := match o with Some x => 1 + f x | None => 1 end.
Definition res_sz {A} (f : A -> Z) (r : rres A) : Z := match r with ROk x => 5 + f x | RErr _ => 7 end.
Definition eight (n : Z) : Z := 8.

Definition qbytes (q : request) : Z :=
  match q with
  | QDropCache => 4
  | QFsCreate n ps | QFsSet n ps => 12 + zlen n + total property_sz ps
  | QFsDestroy n | QPoolClean n | QPoolStatus n => 8 + zlen n
  | QFsList n ps o => 12 + zlen n + 4 * zlen ps + opt_sz eight o
  | QFsMount n => 12 + zlen n
  | QFsStat n ps => 12 + zlen n + 4 * zlen ps
  | QFsUnmount n _ => 9 + zlen n
  | QPoolFault p _ => 24 + zlen p
  | QPoolAttach p _ l => 28 + zlen p + zlen l
  | QPoolList p o => 4 + opt_sz string_sz p + opt_sz eight o
  end.
Definition rbytes (p : response) : Z :=
  match p with
  | PDropCache r | PFsDestroy r | PFsMount r | PFsSet r | PFsUnmount r | PPoolClean r | PPoolFault r | PPoolAttach r => res_sz (fun _ => 0) r
  | PFsCreate r => res_sz eight r
  | PFsList r => res_sz (fun l => 4 + total info_sz l) r
  | PFsStat r => res_sz info_sz r
  | PPoolList r => res_sz (fun l => 4 + total (fun x => 12 + zlen (fst x)) l) r
  | PPoolStatus r => res_sz status_sz r
  end.

(** ** Every message is read as it was written *)

Lemma utf8_step c s : scalar c -> utf8 (utf8_of c ++ s) = utf8 s.
Proof.
  intros Hc. unfold utf8_of. unfold scalar in Hc.
  destruct (Z.ltb_spec c 128) as [L|L].
  { cbn [app utf8]. destruct (Z.ltb_spec c 128); [reflexivity|lia]. }
  assert (C : forall n, cont (128 + n mod 64) = true).
  { intros n. pose proof (Z.mod_pos_bound n 64 ltac:(lia)). unfold cont. apply andb_true_iff. split; apply Z.leb_le; lia. }
  destruct (Z.ltb_spec c 2048) as [L2|L2].
  { cbn [app utf8]. assert (2 <= c / 64 < 32) by (split; [apply Z.div_le_lower_bound|apply Z.div_lt_upper_bound]; lia).
    destruct (Z.ltb_spec (192 + c / 64) 128); [lia|]. destruct (Z.leb_spec 194 (192 + c / 64)); [|lia].
    destruct (Z.leb_spec (192 + c / 64) 223); [|lia]. cbn [andb]. now rewrite C. }
  assert (S4 : forall n lo hi, lo <= n <= hi -> (lo <=? n) && (n <=? hi) = true).
  { intros n lo hi H. apply andb_true_iff. split; apply Z.leb_le; lia. }
  destruct (Z.ltb_spec c 65536) as [L3|L3].
  { assert (B : 0 <= c / 4096 < 16) by (split; [apply Z.div_le_lower_bound|apply Z.div_lt_upper_bound]; lia).
    assert (M : 0 <= c / 64 mod 64 < 64) by (apply Z.mod_pos_bound; lia).
    assert (S : second (224 + c / 4096) (128 + c / 64 mod 64) = true).
    { unfold second. destruct (Z.eqb_spec (224 + c / 4096) 224); [apply S4; Z.to_euclidean_division_equations; lia|].
      destruct (Z.eqb_spec (224 + c / 4096) 237); [apply S4; Z.to_euclidean_division_equations; lia|].
      destruct (Z.eqb_spec (224 + c / 4096) 240); [lia|]. destruct (Z.eqb_spec (224 + c / 4096) 244); [lia|]. apply C. }
    cbn [app utf8]. destruct (Z.ltb_spec (224 + c / 4096) 128); [lia|]. destruct (Z.leb_spec (224 + c / 4096) 223); [lia|].
    rewrite andb_false_r. rewrite (S4 (224 + c / 4096) 224 239) by lia. rewrite S, C. reflexivity. }
  assert (B : 0 <= c / 262144 < 5) by (split; [apply Z.div_le_lower_bound|apply Z.div_lt_upper_bound]; lia).
  assert (M : 0 <= c / 4096 mod 64 < 64) by (apply Z.mod_pos_bound; lia).
  assert (S : second (240 + c / 262144) (128 + c / 4096 mod 64) = true).
  { unfold second. destruct (Z.eqb_spec (240 + c / 262144) 224); [lia|]. destruct (Z.eqb_spec (240 + c / 262144) 237); [lia|].
    destruct (Z.eqb_spec (240 + c / 262144) 240); [apply S4; Z.to_euclidean_division_equations; lia|].
    destruct (Z.eqb_spec (240 + c / 262144) 244); [apply S4; Z.to_euclidean_division_equations; lia|]. apply C. }
  cbn [app utf8]. destruct (Z.ltb_spec (240 + c / 262144) 128); [lia|]. destruct (Z.leb_spec (240 + c / 262144) 223); [lia|].
  rewrite andb_false_r. destruct (Z.leb_spec (240 + c / 262144) 239); [lia|]. rewrite andb_false_r.
  rewrite (S4 (240 + c / 262144) 240 244) by lia. rewrite S, !C. reflexivity.
Qed.

Lemma utf8_byte c : scalar c -> Forall (uint 8) (utf8_of c).
Proof.
  intros Hc. unfold utf8_of, uint. unfold scalar in Hc. change (2 ^ 8) with 256.
  destruct (Z.ltb_spec c 128); [repeat constructor; lia|]. destruct (Z.ltb_spec c 2048); [repeat constructor; Z.to_euclidean_division_equations; lia|].
  destruct (Z.ltb_spec c 65536); repeat constructor; Z.to_euclidean_division_equations; lia.
Qed.

Lemma string_facts t : string_ok t -> few t /\ Forall (uint 8) t /\ utf8 t = true.
Proof.
  intros [F (cs & H & ->)]. split; [exact F|]. clear F. induction H as [|c cs Hc H [IH1 IH2]]; [split; [constructor|reflexivity]|]. cbn [flat_map]. split.
  - apply Forall_app. split; [now apply utf8_byte|exact IH1].
  - now rewrite utf8_step.
Qed.

Lemma law_string : law f_string string_ok.
Proof.
  intros t s H. apply string_facts in H. destruct H as (F & B & U). cbn [f_string enc dec].
  rewrite (law_vec u8 (uint 8) law_u8) by (split; assumption). cbn [obind]. now rewrite U.
Qed.
Lemma law_path : law f_path path_ok.
Proof. eapply law_weak; [exact (law_vec u8 (uint 8) law_u8)|]. intros t [F B]. split; assumption. Qed.
Lemma law_unit : law f_unit any. Proof. intros [] s _. reflexivity. Qed.
Lemma law_bool : law f_bool (fun _ => True).
Proof. eapply law_weak; [apply law_map; [apply law_u8|intros []; reflexivity]|]. intros [] _; unfold uint; lia. Qed.
Lemma law_option {A} (a : fmt A) P : law a P -> law (f_option a) (opt_ok P).
Proof.
  intros L [x|] s H; cbn [f_option enc dec opt_ok] in *.
  - rewrite <- app_assoc. change (le_bytes 1 1) with (enc u8 1). rewrite law_u8 by (unfold uint; lia). cbn [obind].
    change (1 =? 0) with false. cbn iota. now rewrite L.
  - change (le_bytes 1 0) with (enc u8 0). rewrite law_u8 by (unfold uint; lia). reflexivity.
Qed.
Lemma law_result {A} (a : fmt A) P : law a P -> law (f_result a) (res_ok P).
Proof.
  intros L [x|e] s H; cbn [f_result f_error enc dec res_ok] in *; rewrite <- app_assoc.
  - change (le_bytes 1 1) with (enc u8 1). rewrite law_u8 by (unfold uint; lia). cbn [obind]. change (1 =? 0) with false. cbn iota. now rewrite L.
  - change (le_bytes 1 0) with (enc u8 0). rewrite law_u8 by (unfold uint; lia). cbn [obind]. change (0 =? 0) with true. cbn iota.
    change (le_bytes 2 e) with (enc u16 e). rewrite law_u16 by (unfold uint; lia). cbn [obind].
    destruct (Z.ltb_spec e 32768); [|lia]. replace (known e) with true; [reflexivity|]. unfold known, EUNKNOWN. symmetry. apply orb_true_iff.
    destruct H as [H|H]; [left; apply andb_true_iff; split; apply Z.leb_le; lia|right; now apply Z.eqb_eq].
Qed.
Lemma law_vec' {A} (a : fmt A) P : law a P -> law (f_vec a) (vec_ok P).
Proof. intros L. exact (law_vec a P L). Qed.
Lemma law_got {A B} (a : fmt A) P (f : A -> B) x s : law a P -> P x -> got a f (enc a x ++ s) = Some (f x, s).
Proof. intros L H. unfold got. now rewrite L. Qed.
Lemma law_uid : law f_uid (uint 128). Proof. exact (law_uint 16). Qed.

Ltac tag := unfold variant; rewrite <- app_assoc;
  match goal with |- context [le_bytes 4 ?n ++ ?s] => change (le_bytes 4 n) with (enc u32 n); rewrite (law_u32 n) by (unfold uint; lia); cbn [obind] end.

Lemma law_property : law f_property property_ok.
Proof.
  intros p s H. destruct p; cbn [f_property enc dec property_ok] in *; tag; eapply law_got;
    first [exact law_bool|exact law_string|exact law_u8|idtac]; solve [exact Logic.I|exact H].
Qed.
Lemma law_pname : law f_pname (fun _ => True).
Proof. intros p s _. destruct p; cbn [f_pname enc dec]; tag; reflexivity. Qed.
Lemma law_psource : law f_psource source_ok.
Proof. intros p s H. destruct p; cbn [f_psource enc dec source_ok] in *; tag; [reflexivity|reflexivity|]. exact (law_got u8 (uint 8) SSet i s law_u8 H). Qed.
Lemma law_fault : law f_fault (fun _ => True).
Proof. intros p s _. destruct p; cbn [f_fault enc dec]; tag; reflexivity. Qed.
Lemma law_health : law f_health health_ok.
Proof.
  intros p s H. destruct p as [|n|r]; cbn [f_health enc dec health_ok] in *; tag; [reflexivity| |].
  - rewrite law_u8 by (unfold uint; lia). cbn [obind]. destruct (Z.eqb_spec n 0); [lia|reflexivity].
  - exact (law_got f_fault _ WFaulted r s law_fault Logic.I).
Qed.
Lemma law_info : law f_dsinfo info_ok.
Proof.
  eapply law_weak.
  - apply law_map; [|intros []; reflexivity]. apply law_pair; [apply law_string|]. apply law_pair; [apply law_vec', law_pair; [apply law_property|apply law_psource]|apply law_u64].
  - intros i H. exact H.
Qed.
Lemma law_leaf : law f_leafst leaf_ok.
Proof.
  eapply law_weak.
  - apply law_map; [|intros []; reflexivity]. apply law_pair; [apply law_health|]. apply law_pair; [apply law_path|apply law_uid].
  - intros i H. exact H.
Qed.
Lemma law_mirrorst : law f_mirrorst mirrorst_ok.
Proof.
  eapply law_weak.
  - apply law_map; [|intros []; reflexivity]. apply law_pair; [apply law_vec', law_leaf|]. apply law_pair; [apply law_health|apply law_uid].
  - intros i H. exact H.
Qed.
Lemma law_cluster : law f_clusterst cluster_ok.
Proof.
  eapply law_weak.
  - apply law_map; [|intros []; reflexivity]. apply law_pair; [apply law_health|]. apply law_pair; [apply law_string|].
    apply law_pair; [apply law_vec', law_mirrorst|apply law_uid].
  - intros i H. exact H.
Qed.
Lemma law_status : law f_poolst status_ok.
Proof.
  eapply law_weak.
  - apply law_map; [|intros []; reflexivity]. apply law_pair; [apply law_health|]. apply law_pair; [apply law_string|].
    apply law_pair; [apply law_vec', law_cluster|apply law_uid].
  - intros i H. exact H.
Qed.
Lemma all_true {A} (l : list A) : Forall (fun _ => True) l.
Proof. apply Forall_forall. intros x _. exact Logic.I. Qed.

(** Every request is read by the daemon as it was sent, and every answer by the
    client, whatever bytes come after. *)
Theorem C106_request_read q s : request_ok q -> dec f_request (enc f_request q ++ s) = Some (q, s).
Proof.
  intros H. destruct q; cbn [f_request enc dec request_ok] in *; tag; [reflexivity| ..].
  - refine (law_got f_named _ _ (name, props) s (law_pair _ _ _ _ law_string (law_vec' _ _ law_property)) _). exact H.
  - exact (law_got f_string _ _ _ _ law_string H).
  - refine (law_got _ _ _ (name, (props, offset)) s (law_pair _ _ _ _ law_string (law_pair _ _ _ _ (law_vec' _ _ law_pname) (law_option _ _ law_u64))) _).
    destruct H as (H1 & H2 & H3). split; [exact H1|]. split; [split; [exact H2|apply all_true]|exact H3].
  - refine (law_got _ _ _ ([], name) s (law_pair _ _ _ _ law_string law_string) _). split; [|exact H].
    split; [unfold few; cbn; lia|]. exists []. split; [constructor|reflexivity].
  - refine (law_got f_named _ _ (name, props) s (law_pair _ _ _ _ law_string (law_vec' _ _ law_property)) _). exact H.
  - refine (law_got f_asked _ _ (name, props) s (law_pair _ _ _ _ law_string (law_vec' _ _ law_pname)) _).
    destruct H as [H1 H2]. split; [exact H1|]. split; [exact H2|apply all_true].
  - refine (law_got _ _ _ (force, name) s (law_pair _ _ _ _ law_bool law_string) _). split; [exact Logic.I|exact H].
  - exact (law_got f_string _ _ _ _ law_string H).
  - refine (law_got _ _ _ (pool, device) s (law_pair _ _ _ _ law_string law_uid) _). exact H.
  - refine (law_got _ _ _ (pool, (mirror, leaf)) s (law_pair _ _ _ _ law_string (law_pair _ _ _ _ law_uid law_path)) _). exact H.
  - refine (law_got _ _ _ (pool, offset) s (law_pair _ _ _ _ (law_option _ _ law_string) (law_option _ _ law_u64)) _). exact H.
  - exact (law_got f_string _ _ _ _ law_string H).
Qed.

Theorem C106_answer_read p s : response_ok p -> dec f_response (enc f_response p ++ s) = Some (p, s).
Proof.
  intros H. destruct p; cbn [f_response enc dec response_ok] in *; tag;
    (eapply law_got; [apply law_result; first [exact law_unit|exact law_u64|exact law_info|exact law_status|exact (law_vec' _ _ law_info)
       |exact (law_vec' _ _ (law_pair _ _ _ _ law_string law_u64))]|exact H]).
Qed.

(** Different messages have different encodings, and none begins another. *)
Theorem C106_unambiguous :
  (forall q1 q2 a b, request_ok q1 -> request_ok q2 -> enc f_request q1 ++ a = enc f_request q2 ++ b -> q1 = q2 /\ a = b) /\
  (forall p1 p2 a b, response_ok p1 -> response_ok p2 -> enc f_response p1 ++ a = enc f_response p2 ++ b -> p1 = p2 /\ a = b).
Proof.
  split; intros x y a b Hx Hy E.
  - pose proof (C106_request_read x a Hx) as X. rewrite E, C106_request_read in X by exact Hy. injection X as <- <-. auto.
  - pose proof (C106_answer_read x a Hx) as X. rewrite E, C106_answer_read in X by exact Hy. injection X as <- <-. auto.
Qed.

(** ** How long messages are *)

Lemma len_vec {A} (a : fmt A) f l : (forall x, zlen (enc a x) = f x) -> zlen (enc (f_vec a) l) = 4 + total f l.
Proof.
  intros H. cbn [f_vec enc]. rewrite zlen_app, le_len. f_equal. induction l as [|x l IH]; [reflexivity|].
  cbn [flat_map total fold_right]. rewrite zlen_app, H. unfold total in IH. now rewrite IH.
Qed.
Lemma total_const {A} n (l : list A) : total (fun _ => n) l = n * zlen l.
Proof. induction l as [|x l IH]; [cbn; lia|]. cbn [total fold_right]. unfold total in IH. rewrite IH, zlen_cons. lia. Qed.
Lemma len_string t : zlen (enc f_string t) = 4 + zlen t.
Proof. cbn [f_string enc]. rewrite (len_vec u8 (fun _ => 1)) by (intros x; apply le_len). rewrite total_const. lia. Qed.
Lemma len_path t : zlen (enc f_path t) = 4 + zlen t.
Proof. exact (len_string t). Qed.
Lemma len_uint n x : zlen (enc (f_uint n) x) = Z.of_nat n. Proof. apply le_len. Qed.
Lemma len_pair {A B} (a : fmt A) (b : fmt B) x y : zlen (enc (f_pair a b) (x, y)) = zlen (enc a x) + zlen (enc b y).
Proof. cbn [f_pair enc fst snd]. apply zlen_app. Qed.
Lemma len_variant {A} n (a : fmt A) x : zlen (variant n a x) = 4 + zlen (enc a x).
Proof. unfold variant. rewrite zlen_app, le_len. reflexivity. Qed.
Lemma len_option {A} (a : fmt A) f o : (forall x, zlen (enc a x) = f x) -> zlen (enc (f_option a) o) = opt_sz f o.
Proof. intros H. destruct o; cbn [f_option enc opt_sz]; [rewrite zlen_app, H|]; rewrite le_len; reflexivity. Qed.
Lemma len_result {A} (a : fmt A) f r : (forall x, zlen (enc a x) = f x) -> 4 + zlen (enc (f_result a) r) = res_sz f r.
Proof. intros H. destruct r; cbn [f_result f_error enc res_sz]; rewrite zlen_app; [rewrite H|]; rewrite !le_len; lia. Qed.

Lemma len_property p : zlen (enc f_property p) = property_sz p.
Proof. destruct p; cbn [f_property enc property_sz]; rewrite len_variant, ?len_string; try reflexivity; try lia. Qed.
Lemma len_pname p : zlen (enc f_pname p) = 4.
Proof. cbn [f_pname enc]. rewrite len_variant. reflexivity. Qed.
Lemma len_psource p : zlen (enc f_psource p) = source_sz p.
Proof. destruct p; cbn [f_psource enc source_sz]; rewrite len_variant; reflexivity. Qed.
Lemma len_health h : zlen (enc f_health h) = health_sz h.
Proof.
  destruct h; cbn [f_health enc health_sz]; rewrite len_variant; [reflexivity|reflexivity|].
  cbn [f_fault enc]. rewrite len_variant. reflexivity.
Qed.
Lemma len_info i : zlen (enc f_dsinfo i) = info_sz i.
Proof.
  unfold f_dsinfo, info_sz. cbn [f_map enc]. rewrite !len_pair, len_string, (len_vec _ (fun x => property_sz (fst x) + source_sz (snd x))).
  - change (zlen (enc u64 (di_offs i))) with 8. lia.
  - intros [p s]. rewrite len_pair, len_property, len_psource. reflexivity.
Qed.
Lemma len_uid u : zlen (enc f_uid u) = 16. Proof. exact (le_len 16 u). Qed.
Lemma len_leaf l : zlen (enc f_leafst l) = leaf_sz l.
Proof. unfold f_leafst, leaf_sz. cbn [f_map enc]. rewrite !len_pair, len_health, len_path, len_uid. lia. Qed.
Lemma len_mirrorst m : zlen (enc f_mirrorst m) = mirror_sz m.
Proof. unfold f_mirrorst, mirror_sz. cbn [f_map enc]. rewrite !len_pair, (len_vec _ leaf_sz), len_health, len_uid by exact len_leaf. lia. Qed.
Lemma len_cluster c : zlen (enc f_clusterst c) = cluster_sz c.
Proof. unfold f_clusterst, cluster_sz. cbn [f_map enc]. rewrite !len_pair, (len_vec _ mirror_sz), len_health, len_string, len_uid by exact len_mirrorst. lia. Qed.
Lemma len_status p : zlen (enc f_poolst p) = status_sz p.
Proof. unfold f_poolst, status_sz. cbn [f_map enc]. rewrite !len_pair, (len_vec _ cluster_sz), len_health, len_string, len_uid by exact len_cluster. lia. Qed.
Lemma len_named n ps : zlen (enc f_named (n, ps)) = 8 + zlen n + total property_sz ps.
Proof. unfold f_named. rewrite len_pair, len_string, (len_vec _ property_sz) by exact len_property. lia. Qed.
Lemma len_pnames ps : zlen (enc (f_vec f_pname) ps) = 4 + 4 * zlen ps.
Proof. rewrite (len_vec _ (fun _ => 4)) by exact len_pname. now rewrite total_const. Qed.
Lemma len_asked n ps : zlen (enc f_asked (n, ps)) = 8 + zlen n + 4 * zlen ps.
Proof. unfold f_asked. rewrite len_pair, len_string, len_pnames. lia. Qed.
Lemma len_u64 n : zlen (enc u64 n) = eight n. Proof. exact (le_len 8 n). Qed.

Theorem C106_sizes : (forall q, zlen (enc f_request q) = qbytes q) /\ (forall p, zlen (enc f_response p) = rbytes p).
Proof.
  split.
  - intros []; cbn [f_request enc qbytes]; rewrite len_variant, ?len_named, ?len_asked, ?len_pair, ?len_string, ?len_path, ?len_pnames, ?len_uid,
      ?(len_option u64 eight _ len_u64), ?(len_option f_string string_sz _ len_string); try lia; try reflexivity.
    all: rewrite ?len_pair, ?len_uid, ?len_path, ?len_pnames, ?(len_option u64 eight _ len_u64), ?zlen_nil; try lia.
    change (zlen (enc f_bool force)) with (zlen (le_bytes 1 (if force then 1 else 0))). rewrite le_len. lia.
  - intros []; cbn [f_response enc rbytes]; rewrite len_variant; apply len_result; intros x;
      first [apply len_info|apply len_status|apply len_u64|reflexivity|apply len_vec; exact len_info|idtac].
    apply len_vec. intros [n o]. unfold f_poolinfo. rewrite len_pair, len_string, len_u64. unfold eight. cbn [fst]. lia.
Qed.

(** ** What a call gives *)

Section Call.
Context {St : Type} (K : controller St).

Lemma take_all (b : list Z) : zlen b < BUFSIZ -> ztake BUFSIZ b = b.
Proof. intros H. unfold ztake. apply firstn_all2. unfold zlen in H. lia. Qed.
Lemma take_much (b : list Z) : BUFSIZ <= zlen b -> zlen (ztake BUFSIZ b) = BUFSIZ.
Proof. intros H. apply zlen_take. unfold BUFSIZ in *. lia. Qed.

Lemma total_nonneg {A} (f : A -> Z) l : (forall x, 0 <= f x) -> 0 <= total f l.
Proof. intros H. induction l as [|x l IH]; cbn [total fold_right]; [lia|]. pose proof (H x). unfold total in IH. lia. Qed.
Lemma health_pos h : 4 <= health_sz h <= 8. Proof. destruct h; cbn; lia. Qed.
Lemma property_pos p : 0 <= property_sz p. Proof. destruct p; cbn [property_sz]; try lia; pose proof (zlen_nonneg s); lia. Qed.
Lemma source_pos s : 0 <= source_sz s. Proof. destruct s; cbn; lia. Qed.
Lemma leaf_pos l : 0 <= leaf_sz l. Proof. unfold leaf_sz. pose proof (health_pos (lf_health l)). pose proof (zlen_nonneg (lf_path l)). lia. Qed.
Lemma mirror_pos m : 0 <= mirror_sz m.
Proof. unfold mirror_sz. pose proof (health_pos (mi_health m)). pose proof (total_nonneg leaf_sz (mi_leaves m) leaf_pos). lia. Qed.
Lemma cluster_pos c : 0 <= cluster_sz c.
Proof. unfold cluster_sz. pose proof (health_pos (cl_health c)). pose proof (zlen_nonneg (cl_codec c)). pose proof (total_nonneg mirror_sz (cl_mirrors c) mirror_pos). lia. Qed.
Lemma info_pos i : 16 + zlen (di_name i) <= info_sz i.
Proof. unfold info_sz. pose proof (total_nonneg (fun x => property_sz (fst x) + source_sz (snd x)) (di_props i)). specialize (H (fun x => Z.add_nonneg_nonneg _ _ (property_pos _) (source_pos _))). lia. Qed.

(** A request of fewer than 4096 bytes is carried out and answered, and the answer
    arrives if it has fewer than 4096 bytes; a longer request is not carried out. *)
Theorem C106_call euid uid s s' q : request_ok q ->
  (forall s1 p, process_rpc K euid uid s s' q = Some (s1, p) -> response_ok p) ->
  (qbytes q < 4096 -> wire_call K euid uid s s' q =
     match process_rpc K euid uid s s' q with
     | Some (s1, p) => Some (s1, if rbytes p <? 4096 then COk p else CErr TooLarge)
     | None => None
     end) /\
  (4096 <= qbytes q -> wire_call K euid uid s s' q = Some (s, CErr NoResponse)).
Proof.
  intros Q P. destruct C106_sizes as [SQ SR]. unfold wire_call, handle_client. split; intros L.
  - rewrite take_all by (rewrite SQ; exact L). rewrite SQ.
    assert (Q0 : 4 <= qbytes q).
    { rewrite <- SQ. clear. destruct q; cbn [f_request enc]; rewrite len_variant;
        match goal with |- 4 <= 4 + zlen ?x => pose proof (zlen_nonneg x); lia end. }
    destruct (Z.eqb_spec (qbytes q) 0) as [|_]; [lia|]. destruct (Z.leb_spec BUFSIZ (qbytes q)) as [B|_]; [unfold BUFSIZ in B; lia|].
    rewrite <- (app_nil_r (enc f_request q)), C106_request_read by exact Q. cbn [obind].
    destruct (process_rpc K euid uid s s' q) as [[s1 p]|] eqn:E; cbn [obind]; [|reflexivity]. f_equal. f_equal.
    pose proof (P s1 p eq_refl) as R. unfold client_recv.
    assert (R0 : 4 <= rbytes p).
    { rewrite <- SR. clear. destruct p; cbn [f_response enc]; rewrite len_variant;
        match goal with |- 4 <= 4 + zlen ?x => pose proof (zlen_nonneg x); lia end. }
    destruct (Z.ltb_spec (rbytes p) 4096) as [B|B].
    + rewrite take_all by (rewrite SR; exact B). rewrite SR. destruct (Z.eqb_spec (rbytes p) 0) as [|_]; [lia|].
      destruct (Z.leb_spec BUFSIZ (rbytes p)) as [B'|_]; [unfold BUFSIZ in B'; lia|].
      rewrite <- (app_nil_r (enc f_response p)), C106_answer_read by exact R. reflexivity.
    + rewrite take_much by (rewrite SR; exact B). reflexivity.
  - rewrite take_much by (rewrite SQ; exact L). reflexivity.
Qed.

(** So the connection is the one assumed of the client library (C87, C88). *)
Theorem C106_as_assumed euid uid s s' q : request_ok q ->
  (forall s1 p, process_rpc K euid uid s s' q = Some (s1, p) -> response_ok p) ->
  wire_call K euid uid s s' q = call K qbytes rbytes euid uid s s' q.
Proof.
  intros Q P. destruct (C106_call euid uid s s' q Q P) as [A B]. unfold call, BUFSIZ in *. destruct (Z.leb_spec 4096 (qbytes q)); [auto|].
  rewrite A by assumption. destruct (process_rpc K euid uid s s' q) as [[s1 p]|]; cbn [obind]; [|reflexivity].
  destruct (Z.ltb_spec (rbytes p) 4096), (Z.leb_spec 4096 (rbytes p)); try lia; reflexivity.
Qed.

(** Answers without a list or a status have at most 13 bytes: whoever has
    something changed is always told how it went. *)
Theorem C106_small p : small p -> rbytes p <= 13.
Proof. destruct p as [[]|[]|[]|[]|[]|[]|[]|[]|[]|[]|[]|[]|[]]; cbn; unfold eight; lia || contradiction. Qed.

Theorem C106_change_answered euid uid s s' q s1 p : request_ok q -> ~ open_to_all q -> qbytes q < 4096 ->
  process_rpc K euid uid s s' q = Some (s1, p) -> response_ok p -> wire_call K euid uid s s' q = Some (s1, COk p).
Proof.
  intros Q O L E R. destruct (C106_call euid uid s s' q Q) as [A _]. { intros s2 p2 E2. rewrite E in E2. injection E2 as _ <-. exact R. }
  rewrite A, E by exact L. assert (S : small p).
  { clear A L R Q. destruct q; cbn [open_to_all process_rpc] in *; try (contradiction O; exact Logic.I); destruct (uid =? euid);
      repeat match type of E with
      | obind ?x _ = _ => destruct x as [[? []]|]; cbn [obind] in E; try discriminate
      end; try (injection E as _ <-; exact Logic.I). }
  pose proof (C106_small p S). destruct (Z.ltb_spec (rbytes p) 4096); [reflexivity|lia].
Qed.

(** Whatever bytes somebody else sends, nothing is changed. *)
Theorem C106_any_bytes euid uid s s' msg s1 h : uid <> euid -> handle_client K euid uid s s' msg = Some (s1, h) -> s1 = s.
Proof.
  intros D E. unfold handle_client in E. destruct (_ =? 0); [congruence|]. destruct (_ <=? _); [congruence|].
  destruct (dec f_request (ztake BUFSIZ msg)) as [[q r]|]; cbn [obind] in E; [|discriminate].
  destruct (process_rpc K euid uid s s' q) as [[s2 p]|] eqn:P; cbn [obind] in E; [|discriminate]. injection E as <- _.
  exact (C87_no_effect K euid uid s s' q s2 p (or_introl D) P).
Qed.
End Call.

(** *** Listings *)

Section Listing.
Context {St : Type} (K : controller St) (euid uid : Z).

(** The answer to one request of a listing *)
Definition asked (s s' : St) (name : text) (props : list pname) (offs : option Z) : option (St * cres (list dsinfo)) :=
  ask K qbytes rbytes euid uid into_fs_list s s' (QFsList name props offs).

(** The name, which [bfffs fs list] asks for unless told otherwise, as the
    controller gives it *)
Definition names_itself (s : St) (l : list (text * Z)) : Prop :=
  forall x, In x l -> k_get_prop K s (fst x) NName = Some (ROk (Name (fst x), SNone)).

Lemma with_none s l : with_props K s [] l = Some (ROk (map (fun x => mkdi (fst x) [] (snd x)) l)).
Proof. induction l as [|[n o] l IH]; [reflexivity|]. cbn [with_props get_props obind map fst snd]. rewrite IH. reflexivity. Qed.
Lemma with_name s l : names_itself s l -> with_props K s [NName] l = Some (ROk (map (fun x => mkdi (fst x) [(Name (fst x), SNone)] (snd x)) l)).
Proof.
  intros H. induction l as [|[n o] l IH]; [reflexivity|]. cbn [with_props get_props obind map fst snd].
  pose proof (H (n, o) (or_introl eq_refl)) as X. cbn [fst] in X. rewrite X. cbn [obind]. rewrite IH; [reflexivity|]. intros x Hx. apply H. now right.
Qed.

Lemma total_le {A} (f : A -> Z) b l : Forall (fun x => f x <= b) l -> total f l <= b * zlen l.
Proof. intros H. induction H as [|x l Hx H IH]; [cbn; lia|]. cbn [total fold_right]. unfold total in IH. rewrite zlen_cons. lia. Qed.
Lemma total_ge {A} (f : A -> Z) b l : Forall (fun x => b <= f x) l -> b * zlen l <= total f l.
Proof. intros H. induction H as [|x l Hx H IH]; [cbn; lia|]. cbn [total fold_right]. unfold total in IH. rewrite zlen_cons. lia. Qed.

(** A listing arrives if all of the names are short, together with the path to
    them: at most 47 bytes without properties, or 17 with the name. *)
Theorem C106_list_arrives s s' name offs l :
  12 + zlen name + 4 + 9 < 4096 -> k_list_fs K s name offs = Some (ROk l) ->
  (Forall (fun x => zlen (fst x) <= 47) l ->
     asked s s' name [] offs = Some (s, COk (map (fun x => mkdi (fst x) [] (snd x)) (firstn 64 l)))) /\
  (Forall (fun x => zlen (fst x) <= 17) l -> names_itself s' l ->
     asked s s' name [NName] offs = Some (s, COk (map (fun x => mkdi (fst x) [(Name (fst x), SNone)] (snd x)) (firstn 64 l)))).
Proof.
  intros B E. assert (O : opt_sz eight offs <= 9) by (destruct offs; cbn; unfold eight; lia).
  assert (N : zlen (firstn 64 l) <= 64). { unfold zlen. pose proof (firstn_le_length 64 l). lia. }
  assert (I : forall x, In x (firstn 64 l) -> In x l). { intros x H. rewrite <- (firstn_skipn 64 l). apply in_or_app. now left. }
  split; intros F; [|intros NI]; unfold asked, ask, call; cbn [qbytes process_rpc]; rewrite ?zlen_cons, ?zlen_nil;
    match goal with |- context [BUFSIZ <=? ?n] => destruct (Z.leb_spec BUFSIZ n) as [X|_]; [unfold zlen in *; cbn [length] in X; unfold BUFSIZ in X; lia|] end;
    rewrite E; cbn [obind]; change CHUNKQTY with 64%nat.
  - rewrite with_none. cbn [obind rbytes res_sz].
    match goal with |- context [total info_sz ?m] => assert (T : total info_sz m <= 63 * zlen m) end.
    { apply total_le. apply Forall_forall. intros i Hi. apply in_map_iff in Hi. destruct Hi as (x & <- & Hx).
      unfold info_sz. cbn [di_name di_props total fold_right]. rewrite Forall_forall in F. pose proof (F x (I x Hx)) as Y. cbn beta in Y. unfold text in *. lia. }
    rewrite zlen_map in T. match goal with |- context [BUFSIZ <=? ?n] => destruct (Z.leb_spec BUFSIZ n) as [X|_]; [unfold BUFSIZ in X; lia|] end. reflexivity.
  - rewrite with_name by (intros x Hx; apply NI, I, Hx). cbn [obind rbytes res_sz].
    match goal with |- context [total info_sz ?m] => assert (T : total info_sz m <= 63 * zlen m) end.
    { apply total_le. apply Forall_forall. intros i Hi. apply in_map_iff in Hi. destruct Hi as (x & <- & Hx).
      unfold info_sz. cbn [di_name di_props total fold_right fst snd property_sz source_sz]. rewrite Forall_forall in F. pose proof (F x (I x Hx)) as Y. cbn beta in Y. unfold text in *. lia. }
    rewrite zlen_map in T. match goal with |- context [BUFSIZ <=? ?n] => destruct (Z.leb_spec BUFSIZ n) as [X|_]; [unfold BUFSIZ in X; lia|] end. reflexivity.
Qed.
End Listing.

(** *** The status of a pool *)

Definition mirrors_of (st : poolst) : list mirrorst := concat (map cl_mirrors (ps_clusters st)).
Definition leaves_of (st : poolst) : list leafst := concat (map mi_leaves (mirrors_of st)).

Lemma total_app {A} (f : A -> Z) l1 l2 : total f (l1 ++ l2) = total f l1 + total f l2.
Proof. induction l1 as [|x l IH]; [reflexivity|]. unfold total in *. cbn [app fold_right]. lia. Qed.
Lemma total_concat {A B} (f : A -> Z) (g : B -> list A) l : total f (concat (map g l)) = total (fun x => total f (g x)) l.
Proof. induction l as [|x l IH]; [reflexivity|]. cbn [map concat]. rewrite total_app. unfold total in *. cbn [fold_right]. lia. Qed.
Lemma total_add {A} (f g : A -> Z) l : total (fun x => f x + g x) l = total f l + total g l.
Proof. induction l as [|x l IH]; [reflexivity|]. cbn [total fold_right]. unfold total in *. lia. Qed.
Lemma total_ext {A} (f g : A -> Z) l : (forall x, f x = g x) -> total f l = total g l.
Proof. intros H. induction l as [|x l IH]; [reflexivity|]. cbn [total fold_right]. rewrite H. unfold total in *. lia. Qed.
Lemma total_mono {A} (f g : A -> Z) l : (forall x, f x <= g x) -> total f l <= total g l.
Proof. intros H. induction l as [|x l IH]; [cbn; lia|]. cbn [total fold_right]. pose proof (H x). unfold total in *. lia. Qed.

(** Each part of the pool takes 24 to 28 bytes, and a path or a codec its length
    besides. *)
Theorem C106_status_size st :
  let n := 28 + zlen (ps_name st) + total (fun c => 28 + zlen (cl_codec c)) (ps_clusters st) + 24 * zlen (mirrors_of st)
           + total (fun l => 24 + zlen (lf_path l)) (leaves_of st) in
  n <= status_sz st <= n + 4 * (1 + zlen (ps_clusters st) + zlen (mirrors_of st) + zlen (leaves_of st)).
Proof.
  assert (E : status_sz st = 24 + health_sz (ps_health st) + zlen (ps_name st) + total (fun c => 24 + health_sz (cl_health c) + zlen (cl_codec c)) (ps_clusters st)
    + total (fun m => 20 + health_sz (mi_health m)) (mirrors_of st) + total leaf_sz (leaves_of st)).
  { unfold status_sz, leaves_of. rewrite total_concat. unfold mirrors_of. rewrite !total_concat.
    rewrite <- !Z.add_assoc. do 3 f_equal. rewrite <- !total_add. apply total_ext. intros c. unfold cluster_sz. rewrite <- total_add.
    rewrite (total_ext mirror_sz (fun m => 20 + health_sz (mi_health m) + total leaf_sz (mi_leaves m))) by reflexivity. reflexivity. }
  cbn zeta. rewrite E.
  assert (C1 : total (fun c => 28 + zlen (cl_codec c)) (ps_clusters st) <= total (fun c => 24 + health_sz (cl_health c) + zlen (cl_codec c)) (ps_clusters st)).
  { apply total_mono. intros c. pose proof (health_pos (cl_health c)). lia. }
  assert (C2 : total (fun c => 24 + health_sz (cl_health c) + zlen (cl_codec c)) (ps_clusters st) <= total (fun c => 28 + zlen (cl_codec c)) (ps_clusters st) + 4 * zlen (ps_clusters st)).
  { rewrite <- total_const, <- total_add. apply total_mono. intros c. pose proof (health_pos (cl_health c)). lia. }
  assert (M1 : 24 * zlen (mirrors_of st) <= total (fun m => 20 + health_sz (mi_health m)) (mirrors_of st) <= 24 * zlen (mirrors_of st) + 4 * zlen (mirrors_of st)).
  { rewrite <- !total_const, <- total_add. split; apply total_mono; intros c; pose proof (health_pos (mi_health c)); lia. }
  assert (L1 : total (fun l => 24 + zlen (lf_path l)) (leaves_of st) <= total leaf_sz (leaves_of st) <= total (fun l => 24 + zlen (lf_path l)) (leaves_of st) + 4 * zlen (leaves_of st)).
  { rewrite <- total_const, <- total_add. split; apply total_mono; intros c; unfold leaf_sz; pose proof (health_pos (lf_health c)); lia. }
  pose proof (health_pos (ps_health st)). lia.
Qed.

(** The status of a pool of up to 32 disks arrives, if names and paths are not
    very long. *)
Theorem C106_status_arrives {St} (K : controller St) euid uid s pool st : zlen pool < 4088 -> k_status K s pool = Some (ROk st) ->
  zlen (ps_clusters st) <= 4 -> zlen (mirrors_of st) <= 32 -> zlen (leaves_of st) <= 32 ->
  zlen (ps_name st) <= 255 -> Forall (fun c => zlen (cl_codec c) <= 20) (ps_clusters st) -> Forall (fun l => zlen (lf_path l) <= 50) (leaves_of st) ->
  pool_status K qbytes rbytes euid uid s pool = Some (s, COk st).
Proof.
  intros B E C M L N FC FL. unfold pool_status, ask, call. cbn [qbytes process_rpc].
  destruct (Z.leb_spec BUFSIZ (8 + zlen pool)) as [X|_]; [unfold BUFSIZ in X; lia|]. rewrite E. cbn [obind rbytes res_sz].
  pose proof (C106_status_size st) as [_ S]. cbn zeta in S.
  assert (S1 : total (fun c => 28 + zlen (cl_codec c)) (ps_clusters st) <= 48 * zlen (ps_clusters st)).
  { apply total_le. eapply Forall_impl; [|exact FC]. cbn beta. intros; lia. }
  assert (S2 : total (fun l => 24 + zlen (lf_path l)) (leaves_of st) <= 74 * zlen (leaves_of st)).
  { apply total_le. eapply Forall_impl; [|exact FL]. cbn beta. intros; lia. }
  destruct (Z.leb_spec BUFSIZ (5 + status_sz st)) as [X|_]; [unfold BUFSIZ in X; lia|]. reflexivity.
Qed.

(** ** What is not promised by the code *)

(** A data set with 64 children or more whose names are not that short cannot be
    listed by anybody: not a single child is shown.  With the path, 48 bytes are
    too many without properties, and 18 with the name. *)
Theorem C106_list_refuted {St} (K : controller St) euid uid s s' name offs l :
  12 + zlen name + 4 + 9 < 4096 -> k_list_fs K s name offs = Some (ROk l) -> 64 <= zlen l ->
  (Forall (fun x => 48 <= zlen (fst x)) l -> asked K euid uid s s' name [] offs = Some (s, CErr TooLarge)) /\
  (Forall (fun x => 18 <= zlen (fst x)) l -> names_itself K s' l -> asked K euid uid s s' name [NName] offs = Some (s, CErr TooLarge)).
Proof.
  intros B E Z64. assert (O : opt_sz eight offs <= 9) by (destruct offs; cbn; unfold eight; lia).
  assert (N : zlen (firstn 64 l) = 64). { unfold zlen in *. rewrite firstn_length_le; lia. }
  assert (I : forall x, In x (firstn 64 l) -> In x l). { intros x H. rewrite <- (firstn_skipn 64 l). apply in_or_app. now left. }
  split; intros F; [|intros NI]; unfold asked, ask, call; cbn [qbytes process_rpc]; rewrite ?zlen_cons, ?zlen_nil;
    match goal with |- context [BUFSIZ <=? ?n] => destruct (Z.leb_spec BUFSIZ n) as [X|_]; [unfold zlen in *; cbn [length] in X; unfold BUFSIZ in X; lia|] end;
    rewrite E; cbn [obind]; change CHUNKQTY with 64%nat.
  - rewrite with_none. cbn [obind rbytes res_sz].
    match goal with |- context [total info_sz ?m] => assert (T : 64 * zlen m <= total info_sz m) end.
    { apply total_ge. apply Forall_forall. intros i Hi. apply in_map_iff in Hi. destruct Hi as (x & <- & Hx).
      unfold info_sz. cbn [di_name di_props total fold_right]. rewrite Forall_forall in F. pose proof (F x (I x Hx)) as Y. cbn beta in Y. unfold text in *. lia. }
    rewrite zlen_map in T. match goal with |- context [BUFSIZ <=? ?n] => destruct (Z.leb_spec BUFSIZ n) as [_|X]; [|unfold BUFSIZ in X; lia] end. reflexivity.
  - rewrite with_name by (intros x Hx; apply NI, I, Hx). cbn [obind rbytes res_sz].
    match goal with |- context [total info_sz ?m] => assert (T : 64 * zlen m <= total info_sz m) end.
    { apply total_ge. apply Forall_forall. intros i Hi. apply in_map_iff in Hi. destruct Hi as (x & <- & Hx).
      unfold info_sz. cbn [di_name di_props total fold_right fst snd property_sz source_sz]. rewrite Forall_forall in F. pose proof (F x (I x Hx)) as Y. cbn beta in Y. unfold text in *. lia. }
    rewrite zlen_map in T. match goal with |- context [BUFSIZ <=? ?n] => destruct (Z.leb_spec BUFSIZ n) as [_|X]; [|unfold BUFSIZ in X; lia] end. reflexivity.
Qed.

(** So the whole listing ends with that error after the data set itself. *)
Theorem C106_whole_list_refuted {St} (K : controller St) euid uid (w : nat -> St * St) fuel name depth l :
  let s := fst (w 1%nat) in let s' := snd (w 1%nat) in
  0 < depth -> 12 + zlen name + 4 + 9 < 1024 -> k_get_prop K (snd (w 0%nat)) name NName = Some (ROk (Name name, SNone)) ->
  k_list_fs K s name None = Some (ROk l) -> 64 <= zlen l -> Forall (fun x => 18 <= zlen (fst x)) l -> names_itself K s' l ->
  fs_list K qbytes rbytes euid uid w (S fuel) name [NName] None depth = Some ([mkdi name [(Name name, SNone)] 0], Failed TooLarge).
Proof.
  cbn zeta. intros D B G E Z64 F NI. unfold fs_list. unfold ask at 1. unfold call. cbn [qbytes process_rpc]. rewrite zlen_cons, zlen_nil.
  destruct (Z.leb_spec BUFSIZ (12 + zlen name + 4 * (1 + 0))) as [X|_]; [unfold BUFSIZ in X; lia|]. cbn [get_props]. rewrite G. cbn [obind rbytes res_sz].
  match goal with |- context [BUFSIZ <=? 5 + info_sz ?i] => assert (T : info_sz i < 4000) end.
  { unfold info_sz. cbn [di_name di_props total fold_right fst snd property_sz source_sz]. lia. }
  match goal with |- context [BUFSIZ <=? ?n] => destruct (Z.leb_spec BUFSIZ n) as [X|_]; [unfold BUFSIZ in X; lia|] end. cbn [obind into_fs_stat].
  destruct (Z.ltb_spec 0 depth); [|lia]. cbn [children ls_res ls_q ls_offs fill].
  destruct (C106_list_refuted K euid uid (fst (w 1%nat)) (snd (w 1%nat)) name None l ltac:(lia) E Z64) as [_ R].
  unfold asked in R. rewrite (R F NI). reflexivity.
Qed.

(** The status of a pool of 128 disks whose paths have at least 8 bytes never
    arrives, nor of 73 that are not mirrored, and no disk of such a pool can be
    faulted or have another attached to it by its path. *)
Theorem C106_status_refuted {St} (K : controller St) euid uid s pool st path leaf : zlen pool < 4088 -> k_status K s pool = Some (ROk st) ->
  Forall (fun l => 8 <= zlen (lf_path l)) (leaves_of st) -> 128 <= zlen (leaves_of st) \/ 73 <= zlen (leaves_of st) <= zlen (mirrors_of st) ->
  pool_status K qbytes rbytes euid uid s pool = Some (s, CErr TooLarge) /\
  pool_fault K qbytes rbytes euid uid s pool (DPath path) = Some (s, CErr TooLarge) /\
  pool_attach K qbytes rbytes euid uid s pool (DPath path) leaf = Some (s, CErr TooLarge).
Proof.
  intros B E FL N.
  assert (R : pool_status K qbytes rbytes euid uid s pool = Some (s, CErr TooLarge)).
  { unfold pool_status, ask, call. cbn [qbytes process_rpc].
    destruct (Z.leb_spec BUFSIZ (8 + zlen pool)) as [X|_]; [unfold BUFSIZ in X; lia|]. rewrite E. cbn [obind rbytes res_sz].
    pose proof (C106_status_size st) as [S _]. cbn zeta in S.
    assert (S2 : 32 * zlen (leaves_of st) <= total (fun l => 24 + zlen (lf_path l)) (leaves_of st)).
    { apply total_ge. eapply Forall_impl; [|exact FL]. cbn beta. intros; lia. }
    pose proof (total_nonneg (fun c => 28 + zlen (cl_codec c)) (ps_clusters st)) as S1. specialize (S1 (fun c => ltac:(pose proof (zlen_nonneg (cl_codec c)); lia))).
    pose proof (zlen_nonneg (mirrors_of st)). pose proof (zlen_nonneg (ps_name st)).
    destruct (Z.leb_spec BUFSIZ (5 + status_sz st)) as [_|X]; [|unfold BUFSIZ in X; lia]. reflexivity. }
  split; [exact R|]. unfold pool_fault, pool_attach. cbn [with_uuid]. rewrite R. split; reflexivity.
Qed.

(** A request that is too long is not answered, rather than refused: properties of
    4096 bytes or more cannot be set. *)
Theorem C106_long_request_refuted {St} (K : controller St) euid uid s s' name t : string_ok name -> string_ok t -> 4076 <= zlen t ->
  (forall s1 p, process_rpc K euid uid s s' (QFsSet name [Mountpoint t]) = Some (s1, p) -> response_ok p) ->
  wire_call K euid uid s s' (QFsSet name [Mountpoint t]) = Some (s, CErr NoResponse).
Proof.
  intros Hn Ht L P. destruct (C106_call K euid uid s s' (QFsSet name [Mountpoint t])) as [_ B]; [|exact P|].
  - split; [exact Hn|]. split; [unfold few; cbn; lia|]. constructor; [exact Ht|constructor].
  - apply B. cbn [qbytes total fold_right property_sz]. pose proof (zlen_nonneg name). lia.
Qed.

(** ** Cases *)

(** A pool "p" whose root has 64 children with names of 18 bytes, and 73 disks *)
Definition long_names : list (text * Z) := map (fun n => ([112; 47] ++ repeat 97 14 ++ [48 + Z.of_nat n / 10; 48 + Z.of_nat n mod 10], Z.of_nat n)) (seq 1 64).
Definition many_disks : poolst :=
  mkpoolst WOnline [112]
    [mkcluster WOnline [82] (map (fun n => mkmirror [mkleaf WOnline ([47; 100; 101; 118; 47; 100] ++ [48 + Z.of_nat n / 10; 48 + Z.of_nat n mod 10]) (Z.of_nat n)] WOnline 6) (seq 1 73)) 5] 4.
Definition big : controller unit := {|
  k_drop_cache := fun s => s;
  k_create_fs := fun s _ => Some (s, ROk 1);
  k_destroy_fs := fun s _ => Some (s, RErr 2);
  k_list_fs := fun s name _ => Some (ROk (if text_eqb name [112] then long_names else []));
  k_get_prop := fun s name n => Some (ROk (Name name, SNone));
  k_set_prop := fun s _ _ => Some (s, ROk tt);
  k_mount := fun s _ => Some (s, ROk tt);
  k_unmount := fun s _ _ => Some (s, ROk tt);
  k_clean := fun s _ => Some (s, ROk tt);
  k_fault := fun s _ _ => Some (s, ROk tt);
  k_attach := fun s _ _ _ => Some (s, ROk tt);
  k_list_pool := fun s _ _ => Some (ROk [([112], 0)]);
  k_status := fun s pool => Some (ROk (if text_eqb pool [112] then many_disks else toy_status))
|}.

(** é, €, 😀 *)
Example C106_ex :
  string_ok (flat_map utf8_of [233; 8364; 128512]) /\
  flat_map utf8_of [233; 8364; 128512] = [195; 169; 226; 130; 172; 240; 159; 152; 128] /\
  utf8 [237; 160; 128] = false /\
  request_ok (QFsSet [112; 47; 195; 169] [Atime true; RecordSize 17]) /\
  wire_call big 0 0 tt tt (QFsSet [112; 47; 195; 169] [Atime true; RecordSize 17]) = Some (tt, COk (PFsSet (ROk tt))) /\
  wire_call big 0 0 tt tt (QFsDestroy [112]) = Some (tt, COk (PFsDestroy (RErr 2))) /\
  pool_status big qbytes rbytes 0 0 tt [113] = Some (tt, COk toy_status) /\
  wire_call big 0 0 tt tt (QPoolStatus [113]) = Some (tt, COk (PPoolStatus (ROk toy_status))) /\
  pool_status big qbytes rbytes 0 0 tt [112] = Some (tt, CErr TooLarge) /\
  asked big 0 0 tt tt [112] [NName] None = Some (tt, CErr TooLarge) /\
  asked big 0 0 tt tt [112] [] None = Some (tt, COk (map (fun x => mkdi (fst x) [] (snd x)) long_names)) /\
  fs_list big qbytes rbytes 0 0 (fun _ => (tt, tt)) 9 [112] [NName] None 1 = Some ([mkdi [112] [(Name [112], SNone)] 0], Failed TooLarge).
Proof.
  split.
  { split; [unfold few; cbn; lia|]. exists [233; 8364; 128512]. split; [|reflexivity]. repeat constructor; unfold scalar; lia. }
  split; [reflexivity|]. split; [reflexivity|]. split.
  { split.
    - split; [unfold few; cbn; lia|]. exists [112; 47; 233]. split; [|reflexivity]. repeat constructor; unfold scalar; lia.
    - split; [unfold few; cbn; lia|]. repeat constructor; cbn; unfold uint; lia. }
  repeat apply conj; vm_compute; reflexivity.
Qed.

Print Assumptions C106_request_read.
Print Assumptions C106_answer_read.
Print Assumptions C106_unambiguous.
Print Assumptions C106_sizes.
Print Assumptions C106_call.
Print Assumptions C106_as_assumed.
Print Assumptions C106_small.
Print Assumptions C106_change_answered.
Print Assumptions C106_any_bytes.
Print Assumptions C106_list_arrives.
Print Assumptions C106_status_size.
Print Assumptions C106_status_arrives.
Print Assumptions C106_list_refuted.
Print Assumptions C106_whole_list_refuted.
Print Assumptions C106_status_refuted.
Print Assumptions C106_long_request_refuted.
