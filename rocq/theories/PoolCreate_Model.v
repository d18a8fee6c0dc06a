(** "bfffs pool create": from the words of the command line to the devices
    that are opened and the layout that is written to them.

    Models /repo/bfffs/src/pool_create_parser.lalrpop, bin/bfffs/
    pool_create_ast.rs and bin/bfffs/main.rs 672-778 ([Create::main], [Builder]), with
    what of /repo/bfffs-core/src they call decides whether a pool is made:
    vdev_block.rs 773-803, mirror.rs 382-395 and 449-465, raid/mod.rs 179-190,
    raid/vdev_raid.rs 603-676, raid/prime_s.rs 166-182.

    Left out: options (--zone-size, properties), devices too small for a
    label, and failures of the disks while they are formatted.  Texts are
    lists of character codes. *)
From Coq Require Import String.
From Verif Require Import Common Prop_Model.
From Verif Require PrimeSW_Model.
Import List.
Open Scope Z_scope.

(** * Lexer.  lalrpop generates one that skips white space and takes the
    longest match; at equal length a literal wins over a pattern. *)

Inductive token := KMirror | KRaid | Num (ds : text) | Path (p : text).

(** [\s] of the regex crate: the Unicode property White_Space *)
Definition is_space (c : Z) : bool :=
  ((9 <=? c) && (c <=? 13)) || (c =? 32) || (c =? 133) || (c =? 160) || (c =? 5760)
  || ((8192 <=? c) && (c <=? 8202)) || (c =? 8232) || (c =? 8233) || (c =? 8239)
  || (c =? 8287) || (c =? 12288).

(** parser.lalrpop 8, [0-9] *)
Definition is_digit (c : Z) : bool := (48 <=? c) && (c <=? 57).
(** parser.lalrpop 11, [/a-zA-Z] *)
Definition path_start (c : Z) : bool :=
  (c =? 47) || ((97 <=? c) && (c <=? 122)) || ((65 <=? c) && (c <=? 90)).
(** parser.lalrpop 11, the negation of space, tab and newline *)
Definition path_char (c : Z) : bool := negb ((c =? 32) || (c =? 9) || (c =? 10)).

(** parser.lalrpop 15, 19: the literals *)
Definition word_token (w : text) : token :=
  if text_eqb w (str "mirror") then KMirror
  else if text_eqb w (str "raid") then KRaid else Path w.

Inductive lexing := Between | InPath (w : text) | InNum (w : text).

(** [w] is what has been read of the current token, in reverse. *)
Fixpoint lex (l : lexing) (s : text) : option (list token) :=
  match s with
  | [] => match l with
          | Between => Some []
          | InPath w => Some [word_token (rev w)]
          | InNum w => Some [Num (rev w)]
          end
  | c :: r =>
    let fresh :=
      if is_space c then lex Between r
      else if path_start c then lex (InPath [c]) r
      else if is_digit c then lex (InNum [c]) r
      else None in
    match l with
    | Between => fresh
    | InPath w => if path_char c then lex (InPath (c :: w)) r
                  else option_map (cons (word_token (rev w))) fresh
    | InNum w => if is_digit c then lex (InNum (c :: w)) r
                 else option_map (cons (Num (rev w))) fresh
    end
  end.

(** * Parser: pool_create_ast.rs and the rules of the grammar, which is LR(1):
    the next token decides. *)

Inductive raid_child := RDisk (d : text) | RMirror (ds : list text).
Inductive tlv := TRaid (k f : Z) (vs : list raid_child) | TMirror (ds : list text) | TDisk (d : text).

(** parser.lalrpop 8: i16::from_str(..).unwrap() *)
Definition number (ds : text) : option Z :=
  let v := fold_left (fun a c => 10 * a + (c - 48)) ds 0 in
  if v <=? 32767 then Some v else None.

(** r"[/a-zA-Z][^ \t\n]*"* *)
Fixpoint paths (ts : list token) : list text * list token :=
  match ts with
  | Path p :: r => let '(ps, r') := paths r in (p :: ps, r')
  | _ => ([], ts)
  end.

(** parser.lalrpop 14-16, Mirror* *)
Fixpoint mirrors (fuel : nat) (ts : list token) : option (list (list text) * list token) :=
  match fuel with
  | O => None
  | S fu =>
    match ts with
    | KMirror :: r =>
      let '(ps, r') := paths r in
      match ps with
      | [] => None
      | _ => match mirrors fu r' with
             | Some (ms, r'') => Some (ps :: ms, r'')
             | None => None
             end
      end
    | _ => Some ([], ts)
    end
  end.

(** parser.lalrpop 18-27, Raid* *)
Fixpoint raids (fuel : nat) (ts : list token) : option (list tlv * list token) :=
  match fuel with
  | O => None
  | S fu =>
    match ts with
    | KRaid :: Num a :: Num b :: r =>
      match number a, number b with
      | Some k, Some f =>
        let rest vs r' :=
          match vs with
          | [] => None
          | _ => match raids fu r' with
                 | Some (ts', r'') => Some (TRaid k f vs :: ts', r'')
                 | None => None
                 end
          end in
        match r with
        | KMirror :: _ => match mirrors (S (length r)) r with
                          | Some (ms, r') => rest (map RMirror ms) r'
                          | None => None
                          end
        | _ => let '(ps, r') := paths r in rest (map RDisk ps) r'
        end
      | _, _ => None
      end
    | KRaid :: _ => None
    | _ => Some ([], ts)
    end
  end.

(** parser.lalrpop 29-42, Pool *)
Definition parse (ts : list token) : option (list tlv) :=
  let all {A} (x : option (list A * list token)) : option (list A) :=
    match x with Some (a :: l, []) => Some (a :: l) | _ => None end in
  match ts with
  | Path _ :: _ => option_map (map TDisk) (all (Some (paths ts)))
  | KMirror :: _ => option_map (map TMirror) (all (mirrors (S (length ts)) ts))
  | KRaid :: _ => all (raids (S (length ts)) ts)
  | _ => None
  end.

(** * Building the pool *)

(** A device: which one, how many LBAs, how many in a zone. *)
Record dev := mkDev { dev_id : Z; dev_size : Z; dev_zone : Z }.
(** The device that a path leads to.  Several paths may lead to one. *)
Definition world := text -> option dev.

Record cluster := mkCl { cl_k : Z; cl_f : Z; cl_mirrors : list (list text) }.

(** main.rs 706-712.  [opened]: the devices that have been opened. *)
Record builder := mkB { opened : list Z; pending : list (list text); clusters : list cluster }.

Inductive result (A : Type) := Ok (a : A) | Panics | Hangs.
Arguments Ok {A}. Arguments Panics {A}. Arguments Hangs {A}.

(** mirror.rs 390-393, vdev_block.rs 781-787: with O_EXLOCK, opening waits
    until nobody else has the device open, even in the same process. *)
Fixpoint open_all (w : world) (ds : list text) (op : list Z) : result (list Z) :=
  match ds with
  | [] => Ok op
  | d :: r => match w d with
              | None => Panics
              | Some v => if existsb (Z.eqb (dev_id v)) op then Hangs
                          else open_all w r (dev_id v :: op)
              end
  end.

(** Size and zone size of a mirror are those of its first disk. *)
Definition shape (w : world) (m : list text) : Z * Z :=
  match m with
  | d :: _ => match w d with Some v => (dev_size v, dev_zone v) | None => (0, 0) end
  | [] => (0, 0)
  end.
Definition same_shape (a b : Z * Z) : bool := (fst a =? fst b) && (snd a =? snd b).

(** mirror.rs 449-465 *)
Definition mirror_ok (w : world) (m : list text) : bool :=
  match m with
  | [] => false
  | _ => forallb (fun d => same_shape (shape w m) (shape w [d])) m
  end.

(** main.rs 743-746, mirror.rs 382-395 *)
Definition create_mirror (w : world) (b : builder) (ds : list text) : result builder :=
  match open_all w ds (opened b) with
  | Ok op => if mirror_ok w ds then Ok (mkB op (pending b ++ [ds]) (clusters b)) else Panics
  | Panics => Panics
  | Hangs => Hangs
  end.

(** [as i16] *)
Definition as_i16 (n : nat) : Z := (Z.of_nat n + 32768) mod 65536 - 32768.

(** raid/mod.rs 179-190, raid/vdev_raid.rs 603-676, in a release build *)
Definition raid_ok (w : world) (k f : Z) (ms : list (list text)) : bool :=
  match ms with
  | [_] => (k =? 1) && (f =? 0)
  | _ => match PrimeSW_Model.new PrimeSW_Model.Release (as_i16 (length ms)) k f with
         | Some _ => match ms with
                     | m0 :: _ => forallb (fun m => same_shape (shape w m0) (shape w m)) ms
                     | [] => false
                     end
         | None => false
         end
  end.

(** main.rs 758-763: mem::take of the mirrors *)
Definition create_cluster (w : world) (b : builder) (k f : Z) : result builder :=
  if raid_ok w k f (pending b)
  then Ok (mkB (opened b) [] (clusters b ++ [mkCl k f (pending b)]))
  else Panics.

Definition bind {A B} (x : result A) (g : A -> result B) : result B :=
  match x with Ok a => g a | Panics => Panics | Hangs => Hangs end.

(** main.rs 686-695 *)
Fixpoint create_children (w : world) (b : builder) (vs : list raid_child) : result builder :=
  match vs with
  | [] => Ok b
  | RMirror ds :: r => bind (create_mirror w b ds) (fun b' => create_children w b' r)
  | RDisk d :: r => bind (create_mirror w b [d]) (fun b' => create_children w b' r)
  end.

(** main.rs 683-701, 748-756 *)
Fixpoint build (w : world) (b : builder) (ts : list tlv) : result builder :=
  match ts with
  | [] => Ok b
  | t :: r =>
    bind (match t with
          | TRaid k f vs => bind (create_children w b vs) (fun b' => create_cluster w b' k f)
          | TMirror ds => bind (create_mirror w b ds) (fun b' => create_cluster w b' 1 0)
          | TDisk d => bind (create_mirror w b [d]) (fun b' => create_cluster w b' 1 0)
          end) (fun b' => build w b' r)
  end.

(** main.rs 681: self.vdev.join(" ") *)
Fixpoint join (args : list text) : text :=
  match args with
  | [] => []
  | [a] => a
  | a :: r => a ++ 32 :: join r
  end.

(** What comes of the command: the pool that has been made, if any, and the
    devices that have been written to. *)
Record outcome := mkOut { made : result (list cluster); written : list text }.

(** main.rs 673-704; 765-778 ([format]): the first and only writes *)
Definition create (w : world) (args : list text) : outcome :=
  match lex Between (join args) with
  | None => mkOut Panics []
  | Some ts =>
    match parse ts with
    | None => mkOut Panics []
    | Some a =>
      match build w (mkB [] [] []) a with
      | Ok b => mkOut (Ok (clusters b)) (flat_map (fun c => concat (cl_mirrors c)) (clusters b))
      | Panics => mkOut Panics []
      | Hangs => mkOut Hangs []
      end
    end
  end.
