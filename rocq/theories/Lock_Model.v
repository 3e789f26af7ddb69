(** Model of polog/handlers/file/locks/: the double lock of a file handler, used by any number of threads of any number
    of handlers of the same file (in one or several processes). *)
From Verif Require Import Base.
Local Open Scope list_scope.

(** Participants: a thread using a handler.  Every handler has its own DoubleLock (file_dependency_wrapper.py 25): one
    threading.Lock and one open file description of the lock file (file_lock.py 21-25). *)
Definition tid := nat.
Definition hid := nat.

(** Where a participant is in double_lock.py 19-31: outside; about to take the first lock; about to take the second;
    inside the with-block; about to release the first; about to release the second. *)
Inductive pc : Type := Out | Want1 | Want2 | In | Exit1 | Exit2.

Record lconf : Type := mkL {
  l_thread : bool;        (* 'thread' in types; otherwise acquire and release are empty (abstract_single_lock.py, off) *)
  l_file : bool;          (* 'file' in types and the handler has a file name *)
  l_thread_first : bool   (* __exit__ releases the thread lock first: true in the code (double_lock.py 30-31) *)
}.

Record lstate : Type := mkS {
  tl : hid -> option tid;    (* holder of the threading.Lock of a handler *)
  fo : option hid;           (* owner of the advisory lock: an open file description (flock(2)) *)
  pcs : tid -> pc
}.

Definition upd {A} (f : nat -> A) (k : nat) (v : A) : nat -> A := fun x => if Nat.eqb x k then v else f x.

Section Locks.
  Variable c : lconf.
  Variable of : tid -> hid.

  Definition at_pc (s : lstate) (t : tid) (p : pc) : lstate := mkS (tl s) (fo s) (upd (pcs s) t p).

  (** thread_lock.py 18-28. *)
  Definition take_thread (s : lstate) (t : tid) : option lstate :=
    if l_thread c then match tl s (of t) with
                       | Some _ => None                                          (* blocked *)
                       | None => Some (mkS (upd (tl s) (of t) (Some t)) (fo s) (pcs s))
                       end
    else Some s.
  Definition drop_thread (s : lstate) (t : tid) : lstate :=
    if l_thread c then mkS (upd (tl s) (of t) None) (fo s) (pcs s) else s.

  (** file_lock.py 27-39: flock succeeds if nobody, or the same open file description, holds the lock; LOCK_UN removes
      the lock of this file description, if any. *)
  Definition take_file (s : lstate) (t : tid) : option lstate :=
    if l_file c then match fo s with
                     | None => Some (mkS (tl s) (Some (of t)) (pcs s))
                     | Some h => if Nat.eqb h (of t) then Some s else None        (* blocked *)
                     end
    else Some s.
  Definition drop_file (s : lstate) (t : tid) : lstate :=
    if l_file c then match fo s with
                     | Some h => if Nat.eqb h (of t) then mkS (tl s) None (pcs s) else s
                     | None => s
                     end
    else s.

  (** double_lock.py 19-31: one step of participant [t]; None: it cannot move now. *)
  Definition lstep (s : lstate) (t : tid) : option lstate :=
    match pcs s t with
    | Out => Some (at_pc s t Want1)
    | Want1 => option_map (fun s => at_pc s t Want2) (take_thread s t)
    | Want2 => option_map (fun s => at_pc s t In) (take_file s t)
    | In => Some (at_pc s t Exit1)
    | Exit1 => Some (at_pc (if l_thread_first c then drop_thread s t else drop_file s t) t Exit2)
    | Exit2 => Some (at_pc (if l_thread_first c then drop_file s t else drop_thread s t) t Out)
    end.

  Definition lstart : lstate := mkS (fun _ => None) None (fun _ => Out).
  Fixpoint lrun (s : lstate) (l : list tid) : option lstate :=
    match l with [] => Some s | t :: r => match lstep s t with Some s1 => lrun s1 r | None => None end end.
  Definition reachable (s : lstate) : Prop := exists l, lrun lstart l = Some s.
End Locks.
