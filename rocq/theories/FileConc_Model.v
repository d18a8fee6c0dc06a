(** Concurrent writes to one file: Fs::write, fs.rs:2416-2551, at the granularity of single tree operations.

    Each writer reads the inode in a read transaction of its own (fs.rs:2432-2438), then runs one task per record, all
    concurrently (FuturesUnordered, fs.rs:2463-2468); a task for a partial record removes the old record and inserts the new one
    in two steps (fs.rs:2509-2541), a task for a whole record inserts it in one (fs.rs:2543-2549); when all tasks are finished
    the writer stores the inode it read at the start, with new size and bytes (fs.rs:2469-2483).
    As in [File_Model] keys are offsets and storage does not fail; blobs are shown as their bytes. *)
From Verif Require Import Common ZMap File_Model.

Record shared := Shared { c_ext : list (Z * list Z); c_size : Z; c_bytes : Z }.
Inductive task := Todo | Held (base : option (list Z)) | Finished (delta : Z).
Inductive phase := Start | Records (size bytes : Z) (tasks : list task) | Done.
Record writer := Writer { w_off : Z; w_chunks : list (list Z); w_len : Z; w_phase : phase }.

(** fs.rs:2496-2508: key of record [i], and the offset of its chunk in the record *)
Definition rec_key (rs off i : Z) : Z := off - off mod rs + i * rs.
Definition rec_ofs (rs off i : Z) : Z := if i =? 0 then off mod rs else 0.
(** fs.rs:2511-2541: the new value of a record that is written in part *)
Definition rmw (old : option (list Z)) (o : Z) (c : list Z) : option (list Z) :=
  let base := match old with None => zrepeat 0 (zlen c + o) | Some b => b end in
  overwrite (resize base (Z.max (o + zlen c) (zlen base))) o c.
Definition olen (o : option (list Z)) : Z := match o with Some b => zlen b | None => 0 end.

(** one step of task [i] of a writer; [None] is a panic *)
Definition task_step (rs : Z) (ext : list (Z * list Z)) (w : writer) (i : nat) (t : task) : option (list (Z * list Z) * task) :=
  let k := rec_key rs (w_off w) (Z.of_nat i) in
  let c := nth i (w_chunks w) [] in
  match t with
  | Todo => if zlen c <? rs then Some (zm_del k ext, Held (zm_get k ext))
            else Some (zm_set k c ext, Finished (zlen c - olen (zm_get k ext)))
  | Held old => match rmw old (rec_ofs rs (w_off w) (Z.of_nat i)) c with
                | None => None
                | Some b => Some (zm_set k b ext, Finished (zlen b - olen old))
                end
  | Finished _ => Some (ext, t)
  end.
Definition finished (t : task) : bool := match t with Finished _ => true | _ => false end.
Definition delta_of (t : task) : Z := match t with Finished d => d | _ => 0 end.

(** one step of a writer; [i] picks the task to run *)
Definition writer_step (rs : Z) (s : shared) (w : writer) (i : nat) : option (shared * writer) :=
  match w_phase w with
  | Start => Some (s, Writer (w_off w) (w_chunks w) (w_len w) (Records (c_size s) (c_bytes s) (map (fun _ => Todo) (w_chunks w))))
  | Records size bytes ts =>
      if forallb finished ts then
        Some (Shared (c_ext s) (Z.max size (w_off w + w_len w)) (sat_add bytes (fold_right (fun t a => delta_of t + a) 0 ts)),
              Writer (w_off w) (w_chunks w) (w_len w) Done)
      else
        match nth_error ts i with
        | None => Some (s, w)
        | Some t => match task_step rs (c_ext s) w i t with
                    | None => None
                    | Some (e, t') => Some (Shared e (c_size s) (c_bytes s),
                                            Writer (w_off w) (w_chunks w) (w_len w) (Records size bytes (list_upd ts i t')))
                    end
        end
  | Done => Some (s, w)
  end.
(** a schedule is a list of choices (writer, task) *)
Definition sched_step (rs : Z) (st : shared * list writer) (c : nat * nat) : option (shared * list writer) :=
  let (s, ws) := st in
  match nth_error ws (fst c) with
  | None => Some st
  | Some w => match writer_step rs s w (snd c) with
              | None => None
              | Some (s', w') => Some (s', list_upd ws (fst c) w')
              end
  end.
Fixpoint sched (rs : Z) (st : shared * list writer) (cs : list (nat * nat)) : option (shared * list writer) :=
  match cs with
  | [] => Some st
  | c :: r => match sched_step rs st c with Some st' => sched rs st' r | None => None end
  end.

(** a write call that has not begun: fs.rs:2430-2462 *)
Definition new_writer (rs off : Z) (data : list Z) : option writer :=
  match into_chunks data (off mod rs) rs with Some cs => Some (Writer off cs (zlen data) Start) | None => None end.
