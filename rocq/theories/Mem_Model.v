(** Model of polog/handlers/memory/saver.py: the handler that keeps the records in memory, used by any number of threads. *)
From Verif Require Import Base.
Local Open Scope list_scope.

Section Memory.
  Variable R : Type.                                (* records *)

  (** What a thread asks for: memory_saver(), handler(record), handler.clean(). *)
  Inductive mop : Type := MInit | MCall (r : R) | MClean.
  (** Where a thread is inside of its operation: saver.py 17-22 (after the test of 19; after 21), 24-31 (semaphore taken;
      after 30; after 31), 33-40 (semaphore taken; after 39; after 40).  The `with Lock()` of 18 and 28 uses a lock that nobody
      else can see, and takes part in nothing. *)
  Inductive mpc : Type := Idle | I1 | I2 | C1 (r : R) | C2 (r : R) | C3 | K1 | K2 | K3.

  (** Python objects: every list made so far; [all]: the attribute, a position in [lists]; [last]; [inited]: the attribute
      exists; [sem]: who has the semaphore of the class; [progs]: what each thread has still to do. *)
  Record mstate : Type := mkM {
    lists : list (list R); all : option nat; last : option R; inited : bool;
    sem : option nat; pcs : nat -> mpc; progs : nat -> list mop }.

  Definition upd {A} (f : nat -> A) (k : nat) (v : A) : nat -> A := fun x => if Nat.eqb x k then v else f x.
  Fixpoint set_nth (l : list (list R)) (i : nat) (x : list R) : list (list R) :=
    match l, i with [], _ => [] | _ :: r, 0 => x :: r | y :: r, S i => y :: set_nth r i x end.

  Definition go (s : mstate) (t : nat) (p : mpc) : mstate := mkM (lists s) (all s) (last s) (inited s) (sem s) (upd (pcs s) t p) (progs s).
  Definition fresh_list (s : mstate) : mstate := mkM (lists s ++ [[]]) (Some (length (lists s))) (last s) (inited s) (sem s) (pcs s) (progs s).
  Definition set_last (s : mstate) (x : option R) : mstate := mkM (lists s) (all s) x (inited s) (sem s) (pcs s) (progs s).
  Definition set_sem (s : mstate) (x : option nat) : mstate := mkM (lists s) (all s) (last s) (inited s) x (pcs s) (progs s).
  Definition set_inited (s : mstate) : mstate := mkM (lists s) (all s) (last s) true (sem s) (pcs s) (progs s).
  Definition set_lists (s : mstate) (l : list (list R)) : mstate := mkM l (all s) (last s) (inited s) (sem s) (pcs s) (progs s).
  Definition pop (s : mstate) (t : nat) : mstate := mkM (lists s) (all s) (last s) (inited s) (sem s) (pcs s) (upd (progs s) t (tl (progs s t))).

  (** One step of thread [t]; None: nothing to do, or the semaphore is taken.  A call of a handler whose attribute all does
      not exist yet (AttributeError) is also None: it does not happen after memory_saver() has returned. *)
  Definition mstep (s : mstate) (t : nat) : option mstate :=
    match pcs s t with
    | Idle =>
        match progs s t with
        | [] => None
        | MInit :: _ => Some (go (pop s t) t (if inited s then Idle else I1))                                 (* 19 *)
        | MCall r :: _ => match sem s with None => Some (go (set_sem (pop s t) (Some t)) t (C1 r)) | Some _ => None end  (* 29 *)
        | MClean :: _ => match sem s with None => Some (go (set_sem (pop s t) (Some t)) t K1) | Some _ => None end       (* 38 *)
        end
    | I1 => Some (go (fresh_list s) t I2)                                                                      (* 21 *)
    | I2 => Some (go (set_inited s) t Idle)                                                                    (* 22 *)
    | C1 r => match all s with
              | Some a => Some (go (set_lists s (set_nth (lists s) a (nth a (lists s) [] ++ [r]))) t (C2 r))   (* 30 *)
              | None => None
              end
    | C2 r => Some (go (set_last s (Some r)) t C3)                                                             (* 31 *)
    | C3 => Some (go (set_sem s None) t Idle)
    | K1 => Some (go (fresh_list s) t K2)                                                                      (* 39 *)
    | K2 => Some (go (set_last s None) t K3)                                                                   (* 40 *)
    | K3 => Some (go (set_sem s None) t Idle)
    end.

  Fixpoint mrun (s : mstate) (l : list nat) : option mstate :=
    match l with [] => Some s | t :: r => match mstep s t with Some s1 => mrun s1 r | None => None end end.

  (** Before the first memory_saver(): the object exists without attributes; [last] is None in the class (14). *)
  Definition mstart0 (progs : nat -> list mop) : mstate := mkM [] None None false None (fun _ => Idle) progs.
  (** After it. *)
  Definition mstart (progs : nat -> list mop) : mstate := mkM [[]] (Some 0) None true None (fun _ => Idle) progs.

  (** What a reader of handler.all and handler.last sees. *)
  Definition seen_all (s : mstate) : list R := match all s with Some a => nth a (lists s) [] | None => [] end.
End Memory.
