(** The command [bfffs pool status]: bfffs/src/bin/bfffs/main.rs 846-953 on the status that the daemon sends
    ([Rpc_Model]), and vdev.rs 56-72.

    The table is a list of rows; its alignment, done by the prettytable crate, is left out.  Paths are taken to be
    text ([Path::display] replaces what is not). *)
From Coq Require Import String.
From Verif Require Import Common Prop_Model Rpc_Model.
From Coq Require Import List.
Import ListNotations.
Open Scope Z_scope.

(** vdev.rs 56-72 *)
Definition show_health (h : whealth) : text :=
  match h with
  | WOnline => str "Online"
  | WDegraded n => str "Degraded(" ++ show_nat n ++ str ")"
  | WFaulted WRemoved => str "Faulted(removed)"
  | WFaulted WUser => str "Faulted(administratively)"
  | WFaulted WInsufficient => str "Faulted"
  end.
(** vdev.rs 51-53 *)
Definition is_faulted (h : whealth) : bool := match h with WFaulted _ => true | _ => false end.

Record row := Row { r_name : text; r_uuid : option Z; r_health : text }.
(** [format!("{:indent$}{}", "", label)] *)
Definition mkrow (u : bool) (indent : nat) (label : text) (uuid : Z) (h : whealth) : row :=
  Row (repeat 32 indent ++ label) (if u then Some uuid else None) (show_health h).

(** 889-923 *)
Definition add_mirror (u : bool) (st : nat * list row) (m : mirrorst) : nat * list row :=
  let (indent, table) := st in
  let shown := (1 <? Z.of_nat (length (mi_leaves m))) || is_faulted (mi_health m) in
  let (indent, table) := if shown then ((indent + 2)%nat, table ++ [mkrow u indent (str "mirror") (mi_uuid m) (mi_health m)]) else (indent, table) in
  let table := fold_left (fun t l => t ++ [mkrow u indent (lf_path l) (lf_uuid l) (lf_health l)]) (mi_leaves m) table in
  (if shown then (indent - 2)%nat else indent, table).

(** 872-927 *)
Definition add_cluster (u : bool) (st : nat * list row) (c : clusterst) : nat * list row :=
  let (indent, table) := st in
  let shown := 1 <? Z.of_nat (length (cl_mirrors c)) in
  let (indent, table) := if shown then ((indent + 2)%nat, table ++ [mkrow u indent (cl_codec c) (cl_uuid c) (cl_health c)]) else (indent, table) in
  let (indent, table) := fold_left (add_mirror u) (cl_mirrors c) (indent, table) in
  (if shown then (indent - 2)%nat else indent, table).

(** 857-928 [Status::print]; the titles are left out *)
Definition status_rows (u : bool) (st : poolst) : list row :=
  snd (fold_left (add_cluster u) (ps_clusters st) (2%nat, [mkrow u 0 (ps_name st) (ps_uuid st) (ps_health st)])).

(** mirror.rs 242-257 [Child::status], 766-777: a child of a mirror, and what the status tells of it *)
Inductive child :=
| CPresent (path : text) (uuid : Z)
| CFaulted (path : text) (uuid : Z)
| CRebuilding (path : text) (uuid : Z)
| CMissing (uuid : Z).
Definition child_leaf (c : child) : leafst :=
  match c with
  | CPresent p u => mkleaf WOnline p u
  | CFaulted p u => mkleaf (WFaulted WUser) p u
  | CRebuilding p u => mkleaf (WDegraded 1) p u
  | CMissing u => mkleaf (WFaulted WRemoved) [] u
  end.
