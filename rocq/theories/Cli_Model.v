(** The commands [bfffs fs get] and [bfffs fs list]: bfffs/src/bin/bfffs/main.rs 208-498, with the scriptable output
    (-p).  The table for people, made by the tabular crate, is left out, as are options that cannot be parsed.

    The client library's listing (lib.rs, in [Rpc_Model]) is a parameter: what it yields for a data set, properties
    and depth, or the error it ends with.  The standard library's unstable sort is any permutation that is in order.
    [None] is a panic. *)
From Verif Require Import Common FSM_Model Prop_Model Rpc_Model.
From Coq Require Import Sorting.Sorted Sorting.Permutation.

Definition TAB : Z := 9.
Definition NEWLINE : Z := 10.
Definition USIZE_MAX : Z := 2 ^ 64 - 1.
Definition EINVAL_ : Z := 22.

Definition listing := text -> list pname -> Z -> cres (list dsinfo).

(** 300-304, 417-421 *)
Definition depth_of (depth : option Z) (recursive : bool) : Z :=
  match depth with Some d => d | None => if recursive then USIZE_MAX else 0 end.

(** 305-324, 438-447: an error ends the command *)
Fixpoint collect (lst : listing) (datasets : list text) (props : list pname) (depth : Z) : cres (list dsinfo) :=
  match datasets with
  | [] => COk []
  | d :: ds =>
    match lst d props depth with
    | CErr e => CErr e
    | COk l => match collect lst ds props depth with CErr e => CErr e | COk m => COk (l ++ m) end
    end
  end.

(** property.rs 285-287 *)
Definition is_inherited (s : psource) : bool := match s with SSet i => 0 <? i | _ => false end.
Definition psource_eqb (a b : psource) : bool :=
  match a, b with
  | SNone, SNone | SDefault, SDefault => true
  | SSet i, SSet j => i =? j
  | _, _ => false
  end.
(** 309-319 *)
Definition retain (sources : list psource) (d : dsinfo) : dsinfo :=
  mkdi (di_name d)
       (filter (fun x => let eff := if is_inherited (snd x) then SSet 1 else snd x in existsb (psource_eqb eff) sources) (di_props d))
       (di_offs d).

(** [Ord] of strings, by bytes *)
Fixpoint text_cmp (a b : text) : comparison :=
  match a, b with
  | [], [] => Eq
  | [], _ :: _ => Lt
  | _ :: _, [] => Gt
  | x :: a, y :: b => match x ?= y with Eq => text_cmp a b | c => c end
  end.
(** property.rs 22: the derived [Ord] *)
Definition rank (p : property) : Z :=
  match p with Atime _ => 0 | BaseMountpoint _ => 1 | Mountpoint _ => 2 | Name _ => 3 | RecordSize _ => 4 end.
Definition prop_cmp (p q : property) : comparison :=
  match p, q with
  | Atime a, Atime b => Z.b2z a ?= Z.b2z b
  | BaseMountpoint a, BaseMountpoint b | Mountpoint a, Mountpoint b | Name a, Name b => text_cmp a b
  | RecordSize a, RecordSize b => a ?= b
  | _, _ => rank p ?= rank q
  end.

(** [slice::sort_unstable_by] *)
Definition sorts {A} (cmp : A -> A -> comparison) (l l' : list A) : Prop :=
  Permutation l l' /\ StronglySorted (fun x y => cmp x y <> Gt) l'.

(** 216-223 *)
Inductive gfield := GName | GProperty | GValue | GSource.
(** 333-349 *)
Definition get_cell (d : dsinfo) (x : property * psource) (f : gfield) : text :=
  match f with
  | GName => di_name d
  | GProperty => show_name (name_of (fst x))
  | GValue => show_prop (fst x)
  | GSource => show_source (snd x)
  end.
Definition get_rows (fields : list gfield) (all : list dsinfo) : list (list text) :=
  flat_map (fun d => map (fun x => map (get_cell d x) fields) (di_props d)) all.

Fixpoint join (cells : list text) : text :=
  match cells with
  | [] => []
  | [c] => c
  | c :: r => c ++ TAB :: join r
  end.
Definition print_rows (rows : list (list text)) : text := flat_map (fun r => join r ++ [NEWLINE]) rows.

(** 297-353 [Get::main]: its possible outcomes *)
Definition get_cmd (lst : listing) (fields : list gfield) (sources : list psource) (recursive : bool) (depth : option Z)
    (props : list pname) (datasets : list text) (out : cres text) : Prop :=
  match collect lst datasets props (depth_of depth recursive) with
  | CErr e => out = CErr e
  | COk l => exists all, sorts (fun x y => text_cmp (di_name x) (di_name y)) (map (retain sources) l) all /\
                         out = COk (print_rows (get_rows fields all))
  end.

Definition pname_eqb (a b : pname) : bool :=
  match a, b with
  | NAtime, NAtime | NBaseMountpoint, NBaseMountpoint | NMountpoint, NMountpoint | NName, NName | NRecordSize, NRecordSize => true
  | _, _ => false
  end.
Fixpoint position (n : pname) (l : list pname) : option nat :=
  match l with [] => None | x :: r => if pname_eqb n x then Some O else option_map S (position n r) end.
(** 425-435 *)
Fixpoint sort_indices (sort props : list pname) : option (list nat) :=
  match sort with
  | [] => Some []
  | s :: r => match position s props with
              | None => None
              | Some i => option_map (cons i) (sort_indices r props)
              end
  end.

(** 449-457; [x.props[i]] panics if there is no such property *)
Fixpoint cmp_by (idx : list nat) (x y : dsinfo) : option comparison :=
  match idx with
  | [] => Some Eq
  | i :: r =>
    let* p := nth_error (di_props x) i in
    let* q := nth_error (di_props y) i in
    match prop_cmp (fst p) (fst q) with Eq => cmp_by r x y | c => Some c end
  end.

(** 415-473 [List::main].  Which data sets the sort compares is not said: it may panic if comparing any two does. *)
Definition list_cmd (lst : listing) (sort : list pname) (recursive : bool) (depth : option Z)
    (props : list pname) (datasets : list text) (out : option (cres text)) : Prop :=
  match sort_indices sort props with
  | None => out = Some (CErr (Other EINVAL_))
  | Some idx =>
    match collect lst datasets props (depth_of depth recursive) with
    | CErr e => out = Some (CErr e)
    | COk l =>
        (out = None /\ exists x y, In x l /\ In y l /\ cmp_by idx x y = None) \/
        (exists all, Permutation l all /\ StronglySorted (fun x y => exists c, cmp_by idx x y = Some c /\ c <> Gt) all /\
           out = Some (COk (print_rows (map (fun d => map (fun x => show_prop (fst x)) (di_props d)) all))))
    end
  end.
