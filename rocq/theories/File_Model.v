(** Model of the writing of a file with rotation: polog/handlers/file/writer.py (do), file_dependency_wrapper.py,
    rotation/rotator.py (maybe_do, do), by any number of threads of any number of handlers (processes) of the same file. *)
From Verif Require Import Base.
Local Open Scope string_scope.
Local Open Scope list_scope.

Section Files.
  Variable A : Type.                          (* a unit of text *)

  (** The file system: files without names (inodes) and the names.  Each unit of text remembers the handler that wrote it (None:
      it was there before); this mark is for the statements only. *)
  Definition text : Type := list (option nat * A).
  (** The file object of a handler: open on an inode, with the text not yet given to the system; or closed. *)
  Inductive fobj : Type := Opened (ino : nat) (buf : list A) | Closed.

  (** Where a thread is in file_writer.do (writer.py 33-43): before maybe_rotation; with the lock of the rotator (rotator.py 35);
      before the lock of move_file (file_dependency_wrapper.py 120); before shutil.move; before close; before open; before
      the lock of write (70); before file.write; before the lock of flush (98); before file.flush. *)
  Inductive fpc : Type :=
  | Idle | Rot (s : list A) | Check (s : list A) | Move0 (s : list A) (d : string) | Move1 (s : list A) (d : string)
  | Move2 (s : list A) | Move3 (s : list A) | Write0 (s : list A) | Write1 (s : list A) | Flush0 | Flush1.

  Record fconf : Type := mkF {
    f_name : string;          (* the path of the log file *)
    f_of : nat -> nat;        (* the handler a thread uses *)
    f_locked : bool;          (* 'thread' is in lock_type *)
    f_forced : bool;          (* forced_flush *)
    f_cross : bool            (* the directory for the rotated files is on another file system *)
  }.

  Record fstate : Type := mkFS {
    inodes : list text; dir : list (string * nat);
    obj : nat -> fobj;                   (* by handler *)
    flk : nat -> option nat;             (* the thread lock of FileDependencyWrapper.lock, by handler *)
    rlk : nat -> option nat;             (* the lock of the Rotator, by handler *)
    pcs : nat -> fpc; progs : nat -> list (list A) }.

  (** What is decided outside: the answer of the rules with the new name (None: no rotation, or an exception in the check);
      whether shutil.move and open succeed. *)
  Record choice : Type := mkC { c_dest : option string; c_move : bool; c_open : bool }.
  (** A thread makes a step; or the file object of a handler hands some of its buffer to the system. *)
  Inductive sched : Type := Run (t : nat) (c : choice) | Emit (h : nat) (n : nat).
  Inductive fev : Type :=
  | EChecked (h : nat) (size : option nat) (yes : bool)   (* size: of the file with the name f_name *)
  | EMoved (h : nat) (d : string) (size : nat)
  | EAccepted (h : nat) (s : list A) | ERejected (h : nat) (s : list A).

  Definition upd {B} (f : nat -> B) (k : nat) (v : B) : nat -> B := fun x => if Nat.eqb x k then v else f x.
  Fixpoint append_to (l : list text) (i : nat) (x : text) : list text :=
    match l, i with [], _ => [] | y :: r, 0 => (y ++ x) :: r | y :: r, S i => y :: append_to r i x end.

  Variable c : fconf.

  Definition go (s : fstate) (t : nat) (p : fpc) : fstate := mkFS (inodes s) (dir s) (obj s) (flk s) (rlk s) (upd (pcs s) t p) (progs s).
  Definition set_flk (s : fstate) (h : nat) (x : option nat) : fstate := mkFS (inodes s) (dir s) (obj s) (upd (flk s) h x) (rlk s) (pcs s) (progs s).
  Definition set_rlk (s : fstate) (h : nat) (x : option nat) : fstate := mkFS (inodes s) (dir s) (obj s) (flk s) (upd (rlk s) h x) (pcs s) (progs s).
  Definition set_obj (s : fstate) (h : nat) (x : fobj) : fstate := mkFS (inodes s) (dir s) (upd (obj s) h x) (flk s) (rlk s) (pcs s) (progs s).
  Definition set_fs (s : fstate) (i : list text) (d : list (string * nat)) : fstate := mkFS i d (obj s) (flk s) (rlk s) (pcs s) (progs s).
  Definition pop (s : fstate) (t : nat) : fstate := mkFS (inodes s) (dir s) (obj s) (flk s) (rlk s) (pcs s) (upd (progs s) t (tl (progs s t))).

  (** with self.lock (file_dependency_wrapper.py 70, 98, 120); the file lock of other processes only excludes more (C42). *)
  Definition acquire (s : fstate) (t : nat) : option fstate :=
    if f_locked c then match flk s (f_of c t) with None => Some (set_flk s (f_of c t) (Some t)) | Some _ => None end else Some s.
  Definition release (s : fstate) (t : nat) : fstate := if f_locked c then set_flk s (f_of c t) None else s.

  (** The first [n] units of the buffer go to the end of the file that the object is open on (O_APPEND). *)
  Definition emit (s : fstate) (h : nat) (n : nat) : fstate :=
    match obj s h with
    | Opened i b => set_obj (set_fs s (append_to (inodes s) i (map (fun x => (Some h, x)) (firstn n b))) (dir s)) h (Opened i (skipn n b))
    | Closed => s
    end.
  Definition emit_all (s : fstate) (h : nat) : fstate :=
    match obj s h with Opened _ b => emit s h (length b) | Closed => s end.

  (** file_dependency_wrapper.py 121-125: shutil.move: on one file system a rename (which replaces an existing file of the new
      name); otherwise a copy, and the old name is removed.  None: the source is missing. *)
  Definition move (s : fstate) (d : string) : option fstate :=
    match dget String.eqb (dir s) (f_name c) with
    | None => None
    | Some i =>
        let rest := ddel String.eqb (dir s) (f_name c) in
        Some (if f_cross c then set_fs s (inodes s ++ [nth i (inodes s) []]) (dset String.eqb rest d (length (inodes s)))
              else set_fs s (inodes s) (dset String.eqb rest d i))
    end.
  Definition size (s : fstate) : option nat :=
    match dget String.eqb (dir s) (f_name c) with Some i => Some (length (nth i (inodes s) [])) | None => None end.

  (** file_dependency_wrapper.py 79-84: open(filename, 'a'): the file of that name, or a new one. *)
  Definition reopen (s : fstate) (h : nat) : fstate :=
    match dget String.eqb (dir s) (f_name c) with
    | Some i => set_obj s h (Opened i [])
    | None => set_obj (set_fs s (inodes s ++ [[]]) (dset String.eqb (dir s) (f_name c) (length (inodes s)))) h (Opened (length (inodes s)) [])
    end.

  (** writer.py 33-65, rotator.py 29-53, file_dependency_wrapper.py 66-71, 86-99, 111-126: one step.  A flush of a closed file raises
      too, after the text was accepted: also nothing to emit. *)
  Definition fstep (s : fstate) (x : sched) : option (fstate * list fev) :=
    match x with
    | Emit h n => Some (emit s h n, [])
    | Run t ch =>
        let h := f_of c t in
        match pcs s t with
        | Idle => match progs s t with [] => None | w :: _ => Some (go (pop s t) t (Rot w), []) end
        | Rot w => match rlk s h with None => Some (go (set_rlk s h (Some t)) t (Check w), []) | Some _ => None end
        | Check w => match c_dest ch with
                     | Some d => Some (go s t (Move0 w d), [EChecked h (size s) true])
                     | None => Some (go (set_rlk s h None) t (Write0 w), [EChecked h (size s) false])
                     end
        | Move0 w d => option_map (fun s => (go s t (Move1 w d), [])) (acquire s t)
        | Move1 w d =>
            match (if c_move ch then move s d else None) with
            | Some s1 => Some (go s1 t (Move2 w), [EMoved h d match size s with Some n => n | None => 0 end])
            | None => Some (go (set_rlk (release s t) h None) t (Write0 w), [])     (* the exception is dropped: exception_escaping *)
            end
        | Move2 w => Some (go (set_obj (emit_all s h) h Closed) t (Move3 w), [])
        | Move3 w => Some (go (set_rlk (release (if c_open ch then reopen s h else s) t) h None) t (Write0 w), [])
        | Write0 w => option_map (fun s => (go s t (Write1 w), [])) (acquire s t)
        | Write1 w =>
            match obj s h with
            | Opened i b => Some (go (release (set_obj s h (Opened i (b ++ w))) t) t (if f_forced c then Flush0 else Idle), [EAccepted h w])
            | Closed => Some (go (release s t) t Idle, [ERejected h w])             (* ValueError: the handler calls its alternative (C37) *)
            end
        | Flush0 => option_map (fun s => (go s t Flush1, [])) (acquire s t)
        | Flush1 => Some (go (release (emit_all s h) t) t Idle, [])
        end
    end.

  Fixpoint frun (s : fstate) (l : list sched) : option (fstate * list fev) :=
    match l with
    | [] => Some (s, [])
    | x :: r => match fstep s x with
                | None => None
                | Some (s1, e1) => match frun s1 r with None => None | Some (s2, e2) => Some (s2, e1 ++ e2) end
                end
    end.

  (** The files before: others, and the log file with its old text; all handlers have opened it (file_dependency_wrapper.py 59). *)
  Definition fstart (others : list (string * list A)) (old : list A) (progs : nat -> list (list A)) : fstate :=
    mkFS (map (fun f => map (fun x => (None, x)) (snd f)) others ++ [map (fun x => (None, x)) old])
         (combine (map fst others) (seq 0 (length others)) ++ [(f_name c, length others)])
         (fun _ => Opened (length others) []) (fun _ => None) (fun _ => None) (fun _ => Idle) progs.

  (** The text of a file, by its name. *)
  Definition read (s : fstate) (name : string) : option text :=
    match dget String.eqb (dir s) name with Some i => Some (nth i (inodes s) []) | None => None end.
End Files.
