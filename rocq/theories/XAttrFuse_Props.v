(** C90: the daemon's answers about extended attributes. *)
From Verif Require Import Common ZMap FSKey_Model FSKey_Props HTable_Model HTable_Props XAttr_Model XAttr_Proofs.
From Verif Require XAttr_Props.
Import XAttr_Props (Inv, is_ino, set_ok, remove_ok, get_ok, list_inv, gone_ok, empty_inv, fold_cells_ok, tnames).

(** * What the kernel asks for: every file has a map from names such as "user.x" to values *)
Definition fattrs := Z -> list Z -> option (list Z).
Definition text_dec : forall a b : list Z, {a = b} + {a <> b} := list_eq_dec Z.eq_dec.
Inductive req :=
| RSet (file : Z) (name value : list Z) (flags position : Z) | RRemove (file : Z) (name : list Z)
| RGet (file : Z) (name : list Z) (size : Z) | RList (file : Z) (size : Z)
| RSync | RGone (file : Z).
Definition fnext (m : fattrs) (q : req) : fattrs := fun i p =>
  match q with
  | RSet j p' b _ _ => if Z.eq_dec i j then if text_dec p p' then Some b else m i p else m i p
  | RRemove j p' => if Z.eq_dec i j then if text_dec p p' then None else m i p else m i p
  | RGone j => if Z.eq_dec i j then None else m i p
  | _ => m i p
  end.
(** A list is the names, each ended by a zero byte. *)
Definition listed (l : list (list Z)) : list Z := concat (map (fun p => p ++ [0]) l).
Definition len {A} (l : list A) : Z := Z.of_nat (length l).
Definition fright (m : fattrs) (q : req) (a : reply) : Prop :=
  match q with
  | RSet _ _ _ _ _ | RSync | RGone _ => a = Done
  | RRemove i p => a = match m i p with Some _ => Done | None => ENOATTR end
  | RGet i p size =>
      a = match m i p with
          | None => ENOATTR
          | Some b => if size =? 0 then Size (len b) else if len b <=? size then Data b else ERANGE
          end
  | RList i size =>
      exists l, NoDup l /\ (forall p, In p l <-> m i p <> None) /\
        a = if size =? 0 then Size (len (listed l) mod 2 ^ 32) else if len (listed l) <=? size then Data (listed l) else ERANGE
  end.
Fixpoint all_fright (m : fattrs) (qs : list req) (l : list reply) : Prop :=
  match qs, l with
  | [], [] => True
  | q :: qs, a :: l => fright m q a /\ all_fright (fnext m q) qs l
  | _, _ => False
  end.
(** The kernel's names are in one of two namespaces. *)
Definition kname (p : list Z) : Prop := exists s, p = [117; 115; 101; 114; 46] ++ s \/ p = [115; 121; 115; 116; 101; 109; 46] ++ s.
Definition flegal (q : req) : Prop :=
  match q with
  | RSet i p b _ _ => is_ino i /\ kname p /\ len b < 2 ^ 32
  | RRemove i p | RGet i p _ => is_ino i /\ kname p
  | RList i _ | RGone i => is_ino i
  | RSync => True
  end.

(** * The daemon *)
Definition fstep (hash : xname -> Z) (d : xs) (q : req) : option (xs * reply) :=
  match q with
  | RSet i p b fl pos => fuse_setxattr hash d i p b fl pos
  | RRemove i p => fuse_removexattr hash d i p
  | RGet i p size => option_map (fun r => (d, r)) (fuse_getxattr hash d i p size)
  | RList i size => option_map (fun r => (d, r)) (fuse_listxattr d i size)
  | RSync => Some (flush d, Done)
  | RGone i => option_map (fun d => (d, Done)) (delete_inode d i)
  end.
Fixpoint frun (hash : xname -> Z) (d : xs) (qs : list req) : option (xs * list reply) :=
  match qs with
  | [] => Some (d, [])
  | q :: qs => match fstep hash d q with
               | Some (d1, a) => match frun hash d1 qs with Some (d2, l) => Some (d2, a :: l) | None => None end
               | None => None
               end
  end.

(** * Connection *)
Definition pk (n : xname) : list Z := prefix (fst n) ++ snd n.
Lemma pk_split n : split_xattr_name (pk n) = Some n.
Proof. destruct n as [[|] s]; reflexivity. Qed.
Lemma pk_inj a b : pk a = pk b -> a = b.
Proof. intros H. apply (f_equal split_xattr_name) in H. rewrite !pk_split in H. congruence. Qed.
Lemma kname_pk p : kname p -> exists n, p = pk n.
Proof. intros (s & [->| ->]); [exists (User, s)|exists (System, s)]; reflexivity. Qed.

Section Connect.
Context (hash : xname -> Z).
Context (HB : forall n, 0 <= hash n < 2 ^ 56).
Definition up (m : fattrs) : XAttr_Props.attrs := fun i n => m i (pk n).
Definition FInv (d : xs) (m : fattrs) : Prop := Inv hash d (up m) /\ forall i p, m i p <> None -> kname p.

Lemma inv_eq d m m' : (forall i n, m i n = m' i n) -> Inv hash d m -> Inv hash d m'.
Proof.
  intros E (H1 & H2 & H3). split; [exact H1|]. split.
  - intros i n b X. rewrite <- E in X. eapply H2; exact X.
  - intros i Li. eapply inv_ext; [reflexivity| |exact (H3 i Li)]. apply E.
Qed.

Lemma u32_add a b : u32 (u32 a + b) = u32 (a + b). Proof. apply Zplus_mod_idemp_l. Qed.
Lemma pack_len_ok n : pack_len n = u32 (len (pk n ++ [0])).
Proof.
  unfold pack_len, pk. rewrite u32_add. replace (zlen (prefix (fst n)) + u32 (zlen (snd n)) + 1) with (u32 (zlen (snd n)) + (zlen (prefix (fst n)) + 1)) by lia.
  rewrite u32_add. f_equal. unfold zlen, len. rewrite !app_length. cbn [length]. lia.
Qed.
Lemma pack_fold l : forall acc, fold_left pack l acc = acc ++ listed (map pk l).
Proof.
  induction l as [|n l IH]; intros acc; cbn [fold_left map]; [now rewrite app_nil_r|].
  rewrite IH. unfold pack at 1. change (listed (pk n :: map pk l)) with ((pk n ++ [0]) ++ listed (map pk l)). unfold pk. now rewrite <- !app_assoc.
Qed.
Lemma len_fold l : forall s, fold_left (fun s n => u32 (s + pack_len n)) l (u32 s) = u32 (s + len (listed (map pk l))).
Proof.
  induction l as [|n l IH]; intros s; cbn [fold_left map].
  - unfold len. cbn. now rewrite Z.add_0_r.
  - rewrite pack_len_ok, u32_add. rewrite (Z.add_comm s), u32_add. rewrite IH. f_equal.
    change (listed (pk n :: map pk l)) with ((pk n ++ [0]) ++ listed (map pk l)). unfold len. rewrite (app_length (pk n ++ [0])). lia.
Qed.

Lemma fstep_inv d m q : flegal q -> FInv d m -> exists d' a, fstep hash d q = Some (d', a) /\ fright m q a /\ FInv d' (fnext m q).
Proof.
  intros L [HI HK].
  assert (HK' : forall i p, fnext m q i p <> None -> kname p).
  { intros i p. destruct q as [j p' b fl ps|j p'|j p' sz|j sz| |j]; cbn [fnext flegal] in *; try apply HK.
    - destruct (Z.eq_dec i j); [|apply HK]. destruct (text_dec p p') as [->|]; [tauto|apply HK].
    - destruct (Z.eq_dec i j); [|apply HK]. destruct (text_dec p p') as [->|]; [now intros|apply HK].
    - destruct (Z.eq_dec i j); [now intros|apply HK]. }
  assert (Hs : forall b i n, XAttr_Props.legal (XAttr_Props.Set_ i n b) -> XAttr_Props.short (XAttr_Props.next (up m) (XAttr_Props.Set_ i n b))).
  { intros b i n X. apply XAttr_Props.next_short; [exact X|apply HI]. }
  destruct q as [i p b fl ps|i p|i p sz|i sz| |i]; cbn [fstep flegal fright] in *.
  - destruct L as (Li & Kp & Lb). destruct (kname_pk p Kp) as [n ->]. unfold fuse_setxattr. rewrite pk_split.
    destruct (set_ok hash HB d (up m) i n b HI Li) as (d' & E & A & _ & B). rewrite E. exists d', Done. split; [reflexivity|]. split; [reflexivity|].
    split; [|exact HK']. apply (inv_eq _ (XAttr_Props.next (up m) (XAttr_Props.Set_ i n b))).
    + intros j n'. unfold up. cbn [XAttr_Props.next fnext]. destruct (Z.eq_dec j i); [|reflexivity].
      destruct (XAttr_Props.name_dec n' n) as [E1|N], (text_dec (pk n') (pk n)) as [E2|N']; [reflexivity|now rewrite E1 in N'|now apply pk_inj in E2|reflexivity].
    + split; [exact A|]. split; [apply Hs; split; assumption|exact B].
  - destruct L as (Li & Kp). destruct (kname_pk p Kp) as [n ->]. unfold fuse_removexattr. rewrite pk_split.
    destruct (remove_ok hash HB d (up m) i n HI Li) as (d' & E & A & _ & B). rewrite E. exists d'.
    exists (match m i (pk n) with Some _ => Done | None => ENOATTR end). unfold up at 1. split; [destruct (m i (pk n)); reflexivity|]. split; [reflexivity|].
    split; [|exact HK']. apply (inv_eq _ (XAttr_Props.next (up m) (XAttr_Props.Remove_ i n))).
    + intros j n'. unfold up. cbn [XAttr_Props.next fnext]. destruct (Z.eq_dec j i); [|reflexivity].
      destruct (XAttr_Props.name_dec n' n) as [E1|N], (text_dec (pk n') (pk n)) as [E2|N']; [reflexivity|now rewrite E1 in N'|now apply pk_inj in E2|reflexivity].
    + split; [exact A|]. split; [|exact B]. apply XAttr_Props.next_short; [exact Li|apply HI].
  - destruct L as (Li & Kp). destruct (kname_pk p Kp) as [n ->]. unfold fuse_getxattr. rewrite pk_split.
    destruct (get_ok hash HB d (up m) i n HI Li) as [E1 E2]. exists d. eexists. split; [|split; [|split; [exact HI|exact HK]]].
    + rewrite E1, E2. unfold up. instantiate (1 := match m i (pk n) with None => ENOATTR
        | Some b => if sz =? 0 then Size (len b) else if len b <=? sz then Data b else ERANGE end).
      destruct (m i (pk n)) as [b|], (sz =? 0); try reflexivity. change (zlen b) with (len b). now destruct (len b <=? sz).
    + reflexivity.
  - destruct (list_inv hash HB d (up m) i HI L) as (A & B & C). set (l := tnames (t_range d (extattr_range i))) in *. unfold fuse_listxattr.
    exists d. exists (if sz =? 0 then Size (len (listed (map pk l)) mod 2 ^ 32) else if len (listed (map pk l)) <=? sz then Data (listed (map pk l)) else ERANGE).
    split; [|split; [|split; [exact HI|exact HK]]].
    + unfold listextattrlen, listextattr. rewrite !fold_cells_ok by exact A. fold l. rewrite pack_fold. cbn [app].
      destruct (sz =? 0).
      * change 0 with (u32 0) at 1. rewrite len_fold. reflexivity.
      * change (zlen (listed (map pk l))) with (len (listed (map pk l))). now destruct (len (listed (map pk l)) <=? sz).
    + exists (map pk l). split; [|split; [|reflexivity]].
      * apply FinFun.Injective_map_NoDup; [intros x y; apply pk_inj|exact B].
      * intros p. rewrite in_map_iff. split.
        -- intros (n & <- & Hn). apply C in Hn. exact Hn.
        -- intros Hp. destruct (kname_pk p (HK i p Hp)) as [n ->]. exists n. split; [reflexivity|]. now apply C.
  - destruct HI as (H1 & H2 & H3). destruct (flush_ok d H1) as [A B]. exists (flush d), Done. split; [reflexivity|]. split; [reflexivity|].
    split; [|exact HK]. split; [exact A|]. split; [exact H2|].
    intros j Lj. eapply inv_ext; [| |exact (H3 j Lj)]; [|reflexivity]. intros k. unfold XAttr_Props.vi. now rewrite B.
  - destruct (gone_ok hash d (up m) i HI L) as (d' & E & A & _ & B). rewrite E. exists d', Done. split; [reflexivity|]. split; [reflexivity|].
    split; [|exact HK']. apply (inv_eq _ (XAttr_Props.next (up m) (XAttr_Props.Gone i))); [reflexivity|].
    split; [exact A|]. split; [|exact B]. apply XAttr_Props.next_short; [exact L|apply HI].
Qed.
Lemma frun_inv qs : forall d m, Forall flegal qs -> FInv d m -> exists d' l, frun hash d qs = Some (d', l) /\ all_fright m qs l.
Proof.
  induction qs as [|q qs IH]; intros d m L HI; cbn [frun].
  - exists d, []. split; [reflexivity|exact I].
  - inversion L; subst. destruct (fstep_inv d m q H1 HI) as (d1 & a & E & R & HI1). rewrite E.
    destruct (IH d1 (fnext m q) H2 HI1) as (d2 & l & E2 & R2). rewrite E2. exists d2, (a :: l). split; [reflexivity|]. split; assumption.
Qed.
End Connect.

(** * C90 *)
(** Every request is answered, without a panic, as the map from the kernel's names would: the length if the size is zero,
    the data if there is room for them, and an error otherwise. *)
Theorem C90_daemon_partial hash qs : (forall n, 0 <= hash n < 2 ^ 56) -> Forall flegal qs ->
  exists d l, frun hash XAttr_Props.empty qs = Some (d, l) /\ all_fright (fun _ _ => None) qs l.
Proof.
  intros HB L. apply (frun_inv hash HB qs _ _ L). split; [|intros i p H; now contradict H].
  apply (inv_eq hash _ XAttr_Props.no_attrs); [reflexivity|apply empty_inv].
Qed.

(** The listed data can be read back: names have no zero byte. *)
Fixpoint names_of (buf cur : list Z) : list (list Z) :=
  match buf with
  | [] => []
  | c :: buf => if c =? 0 then cur :: names_of buf [] else names_of buf (cur ++ [c])
  end.
Theorem C90_list_is_readable l : Forall (fun p => ~ In 0 p) l -> names_of (listed l) [] = l.
Proof.
  induction l as [|p l IH]; intros H; [reflexivity|]. inversion H; subst. change (listed (p :: l)) with ((p ++ [0]) ++ listed l).
  assert (E : forall p cur, ~ In 0 p -> names_of ((p ++ [0]) ++ listed l) cur = (cur ++ p) :: names_of (listed l) []).
  { induction p0 as [|c p0 IHp]; intros cur Hp; cbn [app names_of]; [now rewrite app_nil_r|].
    destruct (Z.eqb_spec c 0) as [->|Hc]; [exfalso; apply Hp; now left|]. rewrite IHp by (intros X; apply Hp; now right). now rewrite <- app_assoc. }
  rewrite E by assumption. cbn [app]. now rewrite IH.
Qed.

(** Any other name makes the daemon panic, whatever is asked: here "trusted.a" and "user". *)
Definition s_trusted : list Z := [116; 114; 117; 115; 116; 101; 100; 46; 97].
Theorem C90_other_names_refuted : forall hash d i size,
  fuse_getxattr hash d i s_trusted size = None /\ fuse_getxattr hash d i [117; 115; 101; 114] size = None.
Proof. intros. split; reflexivity. Qed.

Definition s_a : list Z := [117; 115; 101; 114; 46; 97]. (* user.a *)
Definition s_b : list Z := [115; 121; 115; 116; 101; 109; 46; 98; 46; 99]. (* system.b.c *)
Definition ex_reqs : list req :=
  [RSet 3 s_a [1; 2; 3] 0 0; RSet 3 s_b [] 0 0; RSync; RGet 3 s_a 0; RGet 3 s_a 2; RGet 3 s_a 3; RGet 3 s_b 1; RList 3 0; RList 3 17; RList 3 18;
   RRemove 3 s_a; RRemove 3 s_a; RGet 3 s_a 9; RGone 3; RList 3 100].
Example C90_example : Forall flegal ex_reqs /\ option_map snd (frun (fun _ => 7) XAttr_Props.empty ex_reqs) =
  Some [Done; Done; Done; Size 3; ERANGE; Data [1; 2; 3]; Data []; Size 18; ERANGE; Data (s_a ++ [0] ++ s_b ++ [0]);
        Done; ENOATTR; ENOATTR; Done; Data []].
Proof.
  split; [|reflexivity].
  assert (Ka : kname s_a) by (exists [97]; now left). assert (Kb : kname s_b) by (exists [98; 46; 99]; now right).
  unfold ex_reqs. repeat (apply Forall_cons; [cbn [flegal]; unfold is_ino; repeat split; try assumption; cbn; lia|]). constructor.
Qed.

Print Assumptions C90_daemon_partial.
Print Assumptions C90_list_is_readable.
Print Assumptions C90_other_names_refuted.
