(** Model of polog/core/utils/read_only_singleton.py for one class, with any number of threads. *)
From Verif Require Import Base.
Local Open Scope list_scope.

(** Where a thread is in cls(...): outside; it looked up the original __new__ and wants the lock (line 16); it has the lock, before
    line 19; before line 20; before line 21; it looked up the replacement, before line 18. *)
Inductive spc : Type := Outside | Wants | Before19 | Before20 | Before21 | Before18.
Record sstate : Type := mkS {
  instance : option nat;      (* cls.instance *)
  replaced : bool;            (* cls.__new__ is the replacement *)
  create_lock : option nat;   (* the thread that has it *)
  fresh : nat;                (* the next object *)
  spcs : nat -> spc }.
Inductive sev : Type := ENew (t o : nat) | EGot (t : nat) (o : option nat).

Definition upds (f : nat -> spc) (t : nat) (p : spc) : nat -> spc := fun u => if Nat.eqb u t then p else f u.
Definition sgo (s : sstate) (t : nat) (p : spc) : sstate := mkS (instance s) (replaced s) (create_lock s) (fresh s) (upds (spcs s) t p).

(** One step of thread [t]. *)
Definition sstep (s : sstate) (t : nat) : option (sstate * list sev) :=
  match spcs s t with
  | Outside => Some (sgo s t (if replaced s then Before18 else Wants), [])             (* type.__call__ looks up __new__ *)
  | Wants => match create_lock s with                                                  (* line 16 *)
             | None => Some (mkS (instance s) (replaced s) (Some t) (fresh s) (upds (spcs s) t Before19), [])
             | Some _ => None
             end
  | Before19 => Some (mkS (Some (fresh s)) (replaced s) (create_lock s) (S (fresh s)) (upds (spcs s) t Before20), [ENew t (fresh s)])
  | Before20 => Some (mkS (instance s) true (create_lock s) (fresh s) (upds (spcs s) t Before21), [])
  | Before21 => Some (mkS (instance s) (replaced s) None (fresh s) (upds (spcs s) t Outside), [EGot t (instance s)])
  | Before18 => Some (sgo s t Outside, [EGot t (instance s)])
  end.
Fixpoint srun (s : sstate) (l : list nat) : option (sstate * list sev) :=
  match l with
  | [] => Some (s, [])
  | t :: r => match sstep s t with
              | None => None
              | Some (s1, e1) => match srun s1 r with None => None | Some (s2, e2) => Some (s2, e1 ++ e2) end
              end
  end.
Definition sstart : sstate := mkS None false None 0 (fun _ => Outside).
