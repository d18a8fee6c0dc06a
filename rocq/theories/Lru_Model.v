(** The block cache's LRU list: cache/lru.rs.  Keys are integers (an injective coding of
    [Key]), buffers any type with a size.  Sizes do not overflow usize.  Panics
    (assert!, unwrap of None, debug_assert!) are [None]. *)
From Verif Require Import Common.

Section Lru.
Context {V : Type} (space : V -> Z) (veq : V -> V -> bool).

(** lru.rs:11-18 *)
Record entry := Entry { buf : V; e_lru : option Z; e_mru : option Z }.

(** lru.rs:26-39; [len] is the HashMap's number of entries, kept beside the map *)
Record cache := Cache
  { capacity : Z; lru : option Z; mru : option Z; size : Z; store : Z -> option entry; len : nat }.

Definition put (s : Z -> option entry) (k : Z) (e : option entry) : Z -> option entry :=
  fun k' => if k' =? k then e else s k'.

(** [store.get_mut(k).unwrap().lru = x] *)
Definition set_lru (s : Z -> option entry) (k : Z) (x : option Z) : option (Z -> option entry) :=
  match s k with
  | Some e => Some (put s k (Some (Entry (buf e) x (e_mru e))))
  | None => None
  end.
Definition set_mru (s : Z -> option entry) (k : Z) (x : option Z) : option (Z -> option entry) :=
  match s k with
  | Some e => Some (put s k (Some (Entry (buf e) (e_lru e) x)))
  | None => None
  end.
Definition oeq (a b : option Z) : bool :=
  match a, b with Some x, Some y => x =? y | None, None => true | _, _ => false end.

(** lru.rs:132-149 *)
Definition remove (c : cache) (key : Z) : option (option V * cache) :=
  match store c key with
  | None => Some (None, c)
  | Some v =>
    let s0 := put (store c) key None in
    let sz := size c - space (buf v) in
    match (match e_mru v with
           | Some m => match set_lru s0 m (e_lru v) with Some s => Some (s, mru c) | None => None end
           | None => if oeq (mru c) (Some key) then Some (s0, e_lru v) else None
           end) with
    | None => None
    | Some (s1, mru') =>
      match (match e_lru v with
             | Some l => match set_mru s1 l (e_mru v) with Some s => Some (s, lru c) | None => None end
             | None => if oeq (lru c) (Some key) then Some (s1, e_mru v) else None
             end) with
      | None => None
      | Some (s2, lru') => Some (Some (buf v), Cache (capacity c) lru' mru' sz s2 (pred (len c)))
      end
    end
  end.

(** lru.rs:53-60 *)
Definition expire (c : cache) : option cache :=
  match lru c with
  | None => None
  | Some k => match remove c k with Some (_, c') => Some c' | None => None end
  end.

(** lru.rs:62-89 *)
Definition get (c : cache) (key : Z) : option (option V * cache) :=
  if oeq (mru c) (Some key) then
    match store c key with Some e => Some (Some (buf e), c) | None => None end
  else
    match store c key with
    | None => Some (None, c)
    | Some v =>
      let s0 := put (store c) key (Some (Entry (buf v) (mru c) None)) in
      match e_mru v with
      | None => None
      | Some vm =>
        match set_lru s0 vm (e_lru v) with
        | None => None
        | Some s1 =>
          match (match e_lru v with
                 | Some l => match set_mru s1 l (e_mru v) with Some s => Some (s, lru c) | None => None end
                 | None => if oeq (lru c) (Some key) then Some (s1, e_mru v) else None
                 end) with
          | None => None
          | Some (s2, lru') =>
            match (match mru c with
                   | Some m => set_mru s2 m (Some key)
                   | None => Some s2
                   end) with
            | None => None
            | Some s3 => Some (Some (buf v), Cache (capacity c) lru' (Some key) (size c) s3 (len c))
            end
          end
        end
      end
    end.

(** lru.rs:91-95 *)
Definition get_ref (c : cache) (key : Z) : option V := option_map buf (store c key).

(** lru.rs:100-102.  The loop removes an entry per iteration, so it is given as many
    iterations as there are entries; the (len+1)-th would find nothing to expire. *)
Fixpoint make_room (fuel : nat) (c : cache) (n : Z) : option cache :=
  if capacity c <? size c + n then
    match fuel with
    | O => None
    | S f => match expire c with Some c' => make_room f c' n | None => None end
    end
  else Some c.

(** lru.rs:97-130 *)
Definition insert (c : cache) (key : Z) (b : V) : option cache :=
  let n := space b in
  if capacity c <? n then None else
  match make_room (len c) c n with
  | None => None
  | Some c =>
    match store c key with
    | Some old => if veq (buf old) b then Some c else None
    | None =>
      let s0 := put (store c) key (Some (Entry b (mru c) None)) in
      match (match mru c with
             | Some m => match s0 m with
                         | Some e => match e_mru e with
                                     | None => set_mru s0 m (Some key)
                                     | Some _ => None
                                     end
                         | None => Some s0
                         end
             | None => Some s0
             end) with
      | None => None
      | Some s1 =>
        Some (Cache (capacity c) (match lru c with None => Some key | Some l => Some l end)
                    (Some key) (size c + n) s1 (S (len c)))
      end
    end
  end.

(** lru.rs:46-51 *)
Definition drop_cache (c : cache) : cache := Cache (capacity c) None None 0 (fun _ => None) 0.

(** lru.rs:155-158 *)
Definition with_capacity (n : Z) : cache := Cache n None None 0 (fun _ => None) 0.
End Lru.
