(** Data set properties and names: property.rs, the property lookup of fs.rs,
    and the name handling of controller.rs.  Strings are lists of character
    codes; [str] turns a literal into one. *)
From Verif Require Import Common.
From Coq Require Import String Ascii.
Open Scope Z_scope.

Definition text := list Z.
Definition str (s : string) : text := map (fun c => Z.of_nat (nat_of_ascii c)) (list_ascii_of_string s).

Fixpoint text_eqb (a b : text) : bool :=
  match a, b with
  | [], [] => true
  | x :: a', y :: b' => (x =? y) && text_eqb a' b'
  | _, _ => false
  end.

Definition SLASH : Z := 47.
Definition EQUALS : Z := 61.

(** [str::splitn(2, c)]: the text before the first [c], and what follows it. *)
Fixpoint split_once (c : Z) (s : text) : text * option text :=
  match s with
  | [] => ([], None)
  | x :: r => if x =? c then ([], Some r)
              else let '(a, b) := split_once c r in (x :: a, b)
  end.

(** [str::rsplit_once(c)]: split at the last [c]. *)
Fixpoint rsplit_once (c : Z) (s : text) : option (text * text) :=
  match s with
  | [] => None
  | x :: r =>
    match rsplit_once c r with
    | Some (a, b) => Some (x :: a, b)
    | None => if x =? c then Some ([], r) else None
    end
  end.

(** [str::splitn(m, c).last()] for [m >= 1]: what is left after splitting off
    at most [m - 1] pieces.  [splitn(0, _)] is empty, so [last] is [None]. *)
Fixpoint splitn_rest (m : nat) (c : Z) (s : text) : text :=
  match m with
  | O => s
  | S m' => match split_once c s with
            | (_, Some r) => splitn_rest m' c r
            | (a, None) => a
            end
  end.
Definition splitn_last (m : nat) (c : Z) (s : text) : option text :=
  match m with O => None | S m' => Some (splitn_rest m' c s) end.

Fixpoint strip_prefix (p s : text) : option text :=
  match p, s with
  | [], _ => Some s
  | x :: p', y :: s' => if x =? y then strip_prefix p' s' else None
  | _ :: _, [] => None
  end.

(** * property.rs *)

(** property.rs 24-53 *)
Inductive property :=
| Atime (b : bool)
| BaseMountpoint (s : text)
| Mountpoint (s : text)
| Name (s : text)
| RecordSize (i : Z).

(** property.rs 199-207 *)
Inductive pname := NAtime | NBaseMountpoint | NMountpoint | NName | NRecordSize.

(** property.rs 83-91 *)
Definition name_of (p : property) : pname :=
  match p with
  | Atime _ => NAtime | BaseMountpoint _ => NBaseMountpoint | Mountpoint _ => NMountpoint
  | Name _ => NName | RecordSize _ => NRecordSize
  end.

(** property.rs 56-67; [None] is the panic of [unimplemented!]. *)
Definition default_value (n : pname) : option property :=
  match n with
  | NAtime => Some (Atime true)
  | NBaseMountpoint => Some (BaseMountpoint [])
  | NMountpoint => None
  | NName => None
  | NRecordSize => Some (RecordSize 17)
  end.

(** property.rs 69-75 *)
Definition prop_inheritable (p : property) : property :=
  match p with Mountpoint mp => BaseMountpoint mp | _ => p end.

(** property.rs 215-221 *)
Definition name_inheritable (n : pname) : option pname :=
  match n with NMountpoint => Some NBaseMountpoint | NName => None | x => Some x end.

(** Decimal digits of a non-negative number, most significant first
    ([fmt::Display] of the standard library, not bfffs code). *)
Fixpoint digits (fuel : nat) (x : Z) (acc : text) : text :=
  match fuel with
  | O => acc
  | S fu => let acc := (48 + x mod 10) :: acc in
            if x / 10 =? 0 then acc else digits fu (x / 10) acc
  end.
Definition show_nat (x : Z) : text := digits 20 x [].
Definition show_int (x : Z) : text := if x <? 0 then 45 :: show_nat (- x) else show_nat x.

(** [1 << i] where both sides default to [i32] and [u8]: in a release build the
    shift amount is taken modulo 32 and the result wraps. *)
Definition shl_i32 (i : Z) : Z := let x := 2 ^ (i mod 32) in if x <? 2^31 then x else x - 2^32.

(** property.rs 116-129, [Display for Property] *)
Definition show_prop (p : property) : text :=
  match p with
  | Atime true => str "on"
  | Atime false => str "off"
  | BaseMountpoint s => s
  | Mountpoint s => s
  | Name s => s
  | RecordSize i => show_int (shl_i32 i)
  end.

(** property.rs 224-234, [Display for PropertyName] *)
Definition show_name (n : pname) : text :=
  match n with
  | NAtime => str "atime"
  | NBaseMountpoint => str "basemountpoint"
  | NMountpoint => str "mountpoint"
  | NName => str "name"
  | NRecordSize => str "recordsize"
  end.

(** property.rs 241-255, [FromStr for PropertyName] *)
Definition parse_name (s : text) : option pname :=
  if text_eqb s (str "atime") then Some NAtime
  else if text_eqb s (str "basemountpoint") then Some NBaseMountpoint
  else if text_eqb s (str "mountpoint") then Some NMountpoint
  else if text_eqb s (str "name") then Some NName
  else if text_eqb s (str "recordsize") then Some NRecordSize
  else if text_eqb s (str "recsize") then Some NRecordSize
  else None.

(** [str::parse::<usize>()] (standard library): an optional [+], at least one
    digit, no overflow. *)
Fixpoint parse_digits (s : text) (acc : Z) : option Z :=
  match s with
  | [] => Some acc
  | c :: r => if (48 <=? c) && (c <=? 57) then
                let acc := acc * 10 + (c - 48) in
                if acc <? 2^64 then parse_digits r acc else None
              else None
  end.
Definition parse_usize (s : text) : option Z :=
  match s with
  | [] => None
  | c :: r => if c =? 43 then match r with [] => None | _ => parse_digits r 0 end
              else parse_digits s 0
  end.

Inductive perr := ENoEquals | EName | EReadOnly | EValue (s : text).
Inductive presult := POk (p : property) | PErr (e : perr).

(** property.rs 174-185: the table of record sizes *)
Definition recsize_lut (rs : Z) : option Z :=
  if rs =? 4096 then Some 12 else
  if rs =? 8192 then Some 13 else
  if rs =? 16384 then Some 14 else
  if rs =? 32768 then Some 15 else
  if rs =? 65536 then Some 16 else
  if rs =? 131072 then Some 17 else
  if rs =? 262144 then Some 18 else
  if rs =? 524288 then Some 19 else
  if rs =? 1048776 then Some 20 else None.

(** property.rs 146-192, [FromStr for Property] *)
Definition parse_prop (s : text) : presult :=
  let '(nm, val) := split_once EQUALS s in
  match parse_name nm with
  | None => PErr EName
  | Some n =>
    match (match n, val with
           | NAtime, None => Some (str "on")
           | _, v => v
           end) with
    | None => PErr ENoEquals
    | Some v =>
      match n with
      | NAtime =>
        if text_eqb v (str "true") || text_eqb v (str "on") then POk (Atime true)
        else if text_eqb v (str "false") || text_eqb v (str "off") then POk (Atime false)
        else PErr (EValue v)
      | NBaseMountpoint => PErr EReadOnly
      | NMountpoint => POk (Mountpoint v)
      | NName => PErr EReadOnly
      | NRecordSize =>
        match parse_usize v with
        | Some rs => match recsize_lut rs with Some i => POk (RecordSize i) | None => PErr (EValue v) end
        | None => PErr (EValue v)
        end
      end
    end
  end.

(** property.rs 266-275 *)
Inductive psource := SNone | SDefault | SSet (i : Z).

(** property.rs 290-298 *)
Definition show_source (s : psource) : text :=
  match s with
  | SDefault => str "default"
  | SSet 0 => str "local"
  | _ => str "inherited"
  end.

(** property.rs 304-316 *)
Definition parse_source (s : text) : option psource :=
  if text_eqb s (str "default") then Some SDefault
  else if text_eqb s (str "local") then Some (SSet 0)
  else if text_eqb s (str "none") then Some SNone
  else if text_eqb s (str "inherited") then Some (SSet 1)
  else None.

(** * Inheritance *)

(** The data sets: [par t] is what [Database::lookup_parent] returns, [props t n]
    the property stored in tree [t] under its property key.  [Debug] builds panic
    when the u8 counter overflows, [Release] builds wrap. *)
Inductive build := Release | Debug.

Section Inherit.
Context (par : Z -> option Z) (props : Z -> pname -> option property) (bld : build).

(** fs.rs 1167-1199, [get_prop_configurable].  Fuel bounds the walk to the root;
    running out, or a panic, is [None]. *)
Fixpoint get_prop_loop (fuel : nat) (t : Z) (n : pname) (dflt : property) (lvl : Z) : option (property * psource) :=
  match fuel with
  | O => None
  | S fu =>
    match props t n with
    | Some p => Some (p, SSet lvl)
    | None =>
      match par t with
      | None => Some (dflt, SDefault)
      | Some t' =>
        if (lvl =? 255) then
          match bld with Debug => None | Release => get_prop_loop fu t' n dflt 0 end
        else get_prop_loop fu t' n dflt (lvl + 1)
      end
    end
  end.

Definition get_prop_configurable (fuel : nat) (t : Z) (n : pname) : option (property * psource) :=
  match default_value n with
  | None => None
  | Some d => get_prop_loop fuel t n d 0
  end.

(** controller.rs 217-235: the mountpoint of data set [dataset] from the inherited
    base mountpoint.  [nparts + 2 - i] is [usize] arithmetic: underflow is [None];
    so is the [unwrap] of an empty [splitn]. *)
Definition derive_mountpoint (dataset bmp : text) (src : psource) : option text :=
  match src with
  | SDefault => Some (SLASH :: dataset)
  | SSet 0 => Some bmp
  | SSet i =>
    let nparts := Z.of_nat (List.length (filter (fun c => c =? SLASH) dataset)) in
    let m := nparts + 2 - i in
    if m <? 0 then None else
    match splitn_last (Z.to_nat m) SLASH dataset with
    | Some s => Some (bmp ++ SLASH :: s)
    | None => None
    end
  | SNone => None
  end.

(** controller.rs 195-247, [get_prop_locked], for a data set that is not mounted
    (a mounted one calls the same function, fs.rs 1160-1163). *)
Definition get_prop (fuel : nat) (dataset : text) (t : Z) (n : pname) : option (property * psource) :=
  match n with
  | NName => Some (Name dataset, SNone)
  | _ =>
    match name_inheritable n with
    | None => None
    | Some ni =>
      match get_prop_configurable fuel t ni with
      | None => None
      | Some (BaseMountpoint bmp, src) =>
        match n with
        | NMountpoint =>
          match derive_mountpoint dataset bmp src with
          | Some mp => Some (Mountpoint mp, src)
          | None => None
          end
        | NBaseMountpoint => Some (Mountpoint bmp, src)
        | _ => None (* assert_eq *)
        end
      | Some (p, src) => Some (p, src)
      end
    end
  end.
End Inherit.

(** * Names *)

(** controller.rs 421-429, [strip_pool_name]; [None] is ENOENT. *)
Definition strip_pool_name (pool name : text) : option text :=
  match strip_prefix pool name with
  | Some s => Some (match strip_prefix [SLASH] s with Some r => r | None => s end)
  | None => None
  end.

(** controller.rs 90-109, [create_fs]: which parent is looked up, and the new
    data set's own name.  [Root] is the pool's root data set (tree 0). *)
Inductive cparent := CNone | CRoot | CPath (p : text).
Definition create_target (pool name : text) : option (cparent * text) :=
  match strip_pool_name pool name with
  | None => None
  | Some fsname =>
    match rsplit_once SLASH fsname with
    | Some (parent, ds) => Some (CPath parent, ds)
    | None => Some (match fsname with [] => CNone | _ => CRoot end, fsname)
    end
  end.
