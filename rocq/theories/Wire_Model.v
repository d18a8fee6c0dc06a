(** The bytes of the daemon's requests and answers: bfffs-core/src/rpc.rs with the
    encodings that are derived by the speedy crate 0.8.7, and the two ends of the
    connection, bfffs/src/lib.rs 346-367 and bfffs/src/bin/bfffsd/main.rs 118-148.

    The crate is not in /repo.  As it is used here (little endian, the defaults of
    the derive macros) it writes the number of the variant of an enum as a u32, an
    option's and a result's as a u8, the length of a string or vector as a u32, a
    bool as a u8, and structs field by field.  A u8 that is neither 0 nor 1 is read
    as 1.  Formats are those of [Label_Model]. *)
From Verif Require Import Common FSM_Model ZMap Prop_Model Label_Model Rpc_Model.

(** A String: its length, then its bytes, which must be UTF-8 when read.  [utf8]
    is [core::str::from_utf8]: well-formed sequences of one to four bytes, of
    which the second is restricted after E0, ED, F0 and F4. *)
Definition cont (b : Z) : bool := (128 <=? b) && (b <=? 191).
Definition second (a b : Z) : bool :=
  if a =? 224 then (160 <=? b) && (b <=? 191)
  else if a =? 237 then (128 <=? b) && (b <=? 159)
  else if a =? 240 then (144 <=? b) && (b <=? 191)
  else if a =? 244 then (128 <=? b) && (b <=? 143)
  else cont b.
Fixpoint utf8 (s : list Z) : bool :=
  match s with
  | [] => true
  | a :: s1 =>
    if a <? 128 then utf8 s1 else
    match s1 with
    | [] => false
    | b :: s2 =>
      if (194 <=? a) && (a <=? 223) then cont b && utf8 s2 else
      match s2 with
      | [] => false
      | c :: s3 =>
        if (224 <=? a) && (a <=? 239) then second a b && cont c && utf8 s3 else
        match s3 with
        | [] => false
        | d :: s4 => (240 <=? a) && (a <=? 244) && second a b && cont c && cont d && utf8 s4
        end
      end
    end
  end.

Definition f_string : fmt text :=
  mkfmt (enc (f_vec u8)) (fun s => let* (t, s) := dec (f_vec u8) s in if utf8 t then Some (t, s) else None).

(** A path: rpc.rs 146-172 and 219-246 *)
Definition f_path : fmt text := f_vec u8.

Definition f_unit : fmt unit := mkfmt (fun _ => []) (fun s => Some (tt, s)).
Definition f_bool : fmt bool := f_map u8 (fun n => negb (n =? 0)) (fun b : bool => if b then 1 else 0).
Definition f_option {A} (a : fmt A) : fmt (option A) :=
  mkfmt (fun o => match o with None => le_bytes 1 0 | Some x => le_bytes 1 1 ++ enc a x end)
        (fun s => let* (t, s) := dec u8 s in
                  if t =? 0 then Some (None, s) else let* (x, s) := dec a s in Some (Some x, s)).

(** types.rs 48-250: the numbers of the errors, with the errno numbers of FreeBSD,
    which are all there; 269-285: others are read as EUNKNOWN.  [i16] is two's
    complement. *)
Definition EUNKNOWN : Z := 256.
Definition known (e : Z) : bool := ((1 <=? e) && (e <=? 97)) || (e =? EUNKNOWN).
Definition f_error : fmt Z :=
  mkfmt (le_bytes 2)
        (fun s => let* (n, s) := dec u16 s in
                  let e := if n <? 32768 then n else n - 65536 in
                  Some (if known e then e else EUNKNOWN, s)).
Definition f_result {A} (a : fmt A) : fmt (rres A) :=
  mkfmt (fun r => match r with ROk x => le_bytes 1 1 ++ enc a x | RErr e => le_bytes 1 0 ++ enc f_error e end)
        (fun s => let* (t, s) := dec u8 s in
                  if t =? 0 then let* (e, s) := dec f_error s in Some (RErr e, s)
                  else let* (x, s) := dec a s in Some (ROk x, s)).

(** A variant of an enum with its fields, when writing and when reading *)
Definition variant {A} (n : Z) (a : fmt A) (x : A) : list Z := le_bytes 4 n ++ enc a x.
Definition got {A B} (a : fmt A) (f : A -> B) (s : list Z) : option (B * list Z) :=
  let* (x, s) := dec a s in Some (f x, s).

(** property.rs 22-53, in the order of the declaration *)
Definition f_property : fmt property :=
  mkfmt (fun p => match p with
                  | Atime b => variant 0 f_bool b
                  | BaseMountpoint t => variant 1 f_string t
                  | Mountpoint t => variant 2 f_string t
                  | Name t => variant 3 f_string t
                  | RecordSize n => variant 4 u8 n
                  end)
        (fun s => let* (n, s) := dec u32 s in
                  match n with
                  | 0 => got f_bool Atime s
                  | 1 => got f_string BaseMountpoint s
                  | 2 => got f_string Mountpoint s
                  | 3 => got f_string Name s
                  | 4 => got u8 RecordSize s
                  | _ => None
                  end).

(** property.rs 194-202 *)
Definition f_pname : fmt pname :=
  mkfmt (fun p => variant (match p with NAtime => 0 | NBaseMountpoint => 1 | NMountpoint => 2 | NName => 3 | NRecordSize => 4 end) f_unit tt)
        (fun s => let* (n, s) := dec u32 s in
                  match n with
                  | 0 => Some (NAtime, s) | 1 => Some (NBaseMountpoint, s) | 2 => Some (NMountpoint, s)
                  | 3 => Some (NName, s) | 4 => Some (NRecordSize, s) | _ => None
                  end).

(** property.rs 259-270 *)
Definition f_psource : fmt psource :=
  mkfmt (fun p => match p with SNone => variant 0 f_unit tt | SDefault => variant 1 f_unit tt | SSet i => variant 2 u8 i end)
        (fun s => let* (n, s) := dec u32 s in
                  match n with 0 => Some (SNone, s) | 1 => Some (SDefault, s) | 2 => got u8 SSet s | _ => None end).

(** vdev.rs 16-39; a [NonZeroU8] that is zero is not read *)
Definition f_fault : fmt wfault :=
  mkfmt (fun r => variant (match r with WUser => 0 | WInsufficient => 1 | WRemoved => 2 end) f_unit tt)
        (fun s => let* (n, s) := dec u32 s in
                  match n with 0 => Some (WUser, s) | 1 => Some (WInsufficient, s) | 2 => Some (WRemoved, s) | _ => None end).
Definition f_health : fmt whealth :=
  mkfmt (fun h => match h with WOnline => variant 0 f_unit tt | WDegraded n => variant 1 u8 n | WFaulted r => variant 2 f_fault r end)
        (fun s => let* (n, s) := dec u32 s in
                  match n with
                  | 0 => Some (WOnline, s)
                  | 1 => let* (d, s) := dec u8 s in if d =? 0 then None else Some (WDegraded d, s)
                  | 2 => got f_fault WFaulted s
                  | _ => None
                  end).

(** types.rs 403-412: the 16 bytes of a uuid, here the number that they make up *)
Definition f_uid : fmt Z := f_uint 16.

(** rpc.rs 36-41 and 127-133 *)
Definition f_dsinfo : fmt dsinfo :=
  f_map (f_pair f_string (f_pair (f_vec (f_pair f_property f_psource)) u64))
    (fun x => mkdi (fst x) (fst (snd x)) (snd (snd x))) (fun i => (di_name i, (di_props i, di_offs i))).
Definition f_poolinfo : fmt (text * Z) := f_pair f_string u64.

(** rpc.rs 135-197 *)
Definition f_leafst : fmt leafst :=
  f_map (f_pair f_health (f_pair f_path f_uid))
    (fun x => mkleaf (fst x) (fst (snd x)) (snd (snd x))) (fun l => (lf_health l, (lf_path l, lf_uuid l))).
Definition f_mirrorst : fmt mirrorst :=
  f_map (f_pair (f_vec f_leafst) (f_pair f_health f_uid))
    (fun x => mkmirror (fst x) (fst (snd x)) (snd (snd x))) (fun m => (mi_leaves m, (mi_health m, mi_uuid m))).
Definition f_clusterst : fmt clusterst :=
  f_map (f_pair f_health (f_pair f_string (f_pair (f_vec f_mirrorst) f_uid)))
    (fun x => mkcluster (fst x) (fst (snd x)) (fst (snd (snd x))) (snd (snd (snd x))))
    (fun c => (cl_health c, (cl_codec c, (cl_mirrors c, cl_uuid c)))).
Definition f_poolst : fmt poolst :=
  f_map (f_pair f_health (f_pair f_string (f_pair (f_vec f_clusterst) f_uid)))
    (fun x => mkpoolst (fst x) (fst (snd x)) (fst (snd (snd x))) (snd (snd (snd x))))
    (fun p => (ps_health p, (ps_name p, (ps_clusters p, ps_uuid p)))).

(** rpc.rs 17-115, 199-284: the structs of the requests; 285-300.  The options of
    a mount are not used by the daemon. *)
Definition f_named : fmt (text * list property) := f_pair f_string (f_vec f_property).
Definition f_asked : fmt (text * list pname) := f_pair f_string (f_vec f_pname).
Definition f_request : fmt request :=
  mkfmt (fun q => match q with
                  | QDropCache => variant 0 f_unit tt
                  | QFsCreate n ps => variant 1 f_named (n, ps)
                  | QFsDestroy n => variant 2 f_string n
                  | QFsList n ps o => variant 3 (f_pair f_string (f_pair (f_vec f_pname) (f_option u64))) (n, (ps, o))
                  | QFsMount n => variant 4 (f_pair f_string f_string) ([], n)
                  | QFsSet n ps => variant 5 f_named (n, ps)
                  | QFsStat n ps => variant 6 f_asked (n, ps)
                  | QFsUnmount n f => variant 7 (f_pair f_bool f_string) (f, n)
                  | QPoolClean p => variant 8 f_string p
                  | QPoolFault p d => variant 9 (f_pair f_string f_uid) (p, d)
                  | QPoolAttach p m l => variant 10 (f_pair f_string (f_pair f_uid f_path)) (p, (m, l))
                  | QPoolList p o => variant 11 (f_pair (f_option f_string) (f_option u64)) (p, o)
                  | QPoolStatus p => variant 12 f_string p
                  end)
        (fun s => let* (n, s) := dec u32 s in
                  match n with
                  | 0 => Some (QDropCache, s)
                  | 1 => got f_named (fun x => QFsCreate (fst x) (snd x)) s
                  | 2 => got f_string QFsDestroy s
                  | 3 => got (f_pair f_string (f_pair (f_vec f_pname) (f_option u64))) (fun x => QFsList (fst x) (fst (snd x)) (snd (snd x))) s
                  | 4 => got (f_pair f_string f_string) (fun x => QFsMount (snd x)) s
                  | 5 => got f_named (fun x => QFsSet (fst x) (snd x)) s
                  | 6 => got f_asked (fun x => QFsStat (fst x) (snd x)) s
                  | 7 => got (f_pair f_bool f_string) (fun x => QFsUnmount (snd x) (fst x)) s
                  | 8 => got f_string QPoolClean s
                  | 9 => got (f_pair f_string f_uid) (fun x => QPoolFault (fst x) (snd x)) s
                  | 10 => got (f_pair f_string (f_pair f_uid f_path)) (fun x => QPoolAttach (fst x) (fst (snd x)) (snd (snd x))) s
                  | 11 => got (f_pair (f_option f_string) (f_option u64)) (fun x => QPoolList (fst x) (snd x)) s
                  | 12 => got f_string QPoolStatus s
                  | _ => None
                  end).

(** rpc.rs 302-317 *)
Definition f_response : fmt response :=
  mkfmt (fun p => match p with
                  | PDropCache r => variant 0 (f_result f_unit) r
                  | PFsCreate r => variant 1 (f_result u64) r
                  | PFsDestroy r => variant 2 (f_result f_unit) r
                  | PFsList r => variant 3 (f_result (f_vec f_dsinfo)) r
                  | PFsMount r => variant 4 (f_result f_unit) r
                  | PFsSet r => variant 5 (f_result f_unit) r
                  | PFsStat r => variant 6 (f_result f_dsinfo) r
                  | PFsUnmount r => variant 7 (f_result f_unit) r
                  | PPoolClean r => variant 8 (f_result f_unit) r
                  | PPoolFault r => variant 9 (f_result f_unit) r
                  | PPoolAttach r => variant 10 (f_result f_unit) r
                  | PPoolList r => variant 11 (f_result (f_vec f_poolinfo)) r
                  | PPoolStatus r => variant 12 (f_result f_poolst) r
                  end)
        (fun s => let* (n, s) := dec u32 s in
                  match n with
                  | 0 => got (f_result f_unit) PDropCache s
                  | 1 => got (f_result u64) PFsCreate s
                  | 2 => got (f_result f_unit) PFsDestroy s
                  | 3 => got (f_result (f_vec f_dsinfo)) PFsList s
                  | 4 => got (f_result f_unit) PFsMount s
                  | 5 => got (f_result f_unit) PFsSet s
                  | 6 => got (f_result f_dsinfo) PFsStat s
                  | 7 => got (f_result f_unit) PFsUnmount s
                  | 8 => got (f_result f_unit) PPoolClean s
                  | 9 => got (f_result f_unit) PPoolFault s
                  | 10 => got (f_result f_unit) PPoolAttach s
                  | 11 => got (f_result (f_vec f_poolinfo)) PPoolList s
                  | 12 => got (f_result f_poolst) PPoolStatus s
                  | _ => None
                  end).

(** ** One request over the socket

    bfffsd/main.rs 118-148: the daemon reads at most BUFSIZ bytes of a message.
    [HClosed] is the connection closed without an answer.  [None] is the panic of
    the [unwrap], or one while the request is handled. *)
Section Socket.
Context {St : Type} (K : controller St) (euid uid : Z).

Inductive handled := HClosed | HAnswer (b : list Z).

Definition handle_client (s s' : St) (msg : list Z) : option (St * handled) :=
  let buf := ztake BUFSIZ msg in
  let nread := zlen buf in
  if nread =? 0 then Some (s, HClosed)
  else if BUFSIZ <=? nread then Some (s, HClosed)
  else
    let* (q, _) := dec f_request buf in
    let* (s, p) := process_rpc K euid uid s s' q in
    Some (s, HAnswer (enc f_response p)).

(** lib.rs 353-366, with what the socket gives: nothing when it is closed, of a
    message at most as much as the buffer holds *)
Definition client_recv (h : handled) : cres response :=
  let buf := match h with HClosed => [] | HAnswer b => ztake BUFSIZ b end in
  let nread := zlen buf in
  if nread =? 0 then CErr NoResponse
  else if BUFSIZ <=? nread then CErr TooLarge
  else match dec f_response buf with Some (p, _) => COk p | None => CErr Corrupt end.

(** lib.rs 346-352 *)
Definition wire_call (s s' : St) (q : request) : option (St * cres response) :=
  let* (s, h) := handle_client s s' (enc f_request q) in
  Some (s, client_recv h).
End Socket.
