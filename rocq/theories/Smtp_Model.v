(** Model of polog/handlers/smtp/smtp_dependency_wrapper.py: the sending of letters by any number of threads through one handler.
    The connection is kept in an attribute of the object shared by the threads.  Every call of smtplib is one step (simplified: in reality
    two calls on one connection can also overlap), and so is every thread's turn to take the next letter.  Whether the server
    does what it is asked is decided by the label of the step; on a connection that was closed no call succeeds. *)
From Verif Require Import Base.
Local Open Scope list_scope.

Section Smtp.
  Variable M : Type.                           (* letters *)

  (** Where a thread is: outside of send; before SMTP_SSL(...) (line 30), login (31), as_string and sendmail (37), quit (45). *)
  Inductive pc : Type := PIdle | PConnect (m : M) | PLogin (m : M) | PMail (m : M) | PQuit (m : M).
  (** What a connection is: not closed; logged in. *)
  Record conn : Type := mkConn { c_open : bool; c_logged : bool }.
  Record st : Type := mkSt { server : option nat;        (* self._server: the number of a connection *)
                             conns : list conn; pcs : nat -> pc; todo : nat -> list M }.
  (** What happened: a connection was made, logged in, a letter was accepted, the connection was ended; send of a letter returned or raised. *)
  Inductive ev : Type :=
  | EConnect (t c : nat) | ELogin (t c : nat) | EMail (t c : nat) (m : M) | EQuit (t c : nat)
  | EEnd (t : nat) (m : M) (returned : bool).

  Definition upd {X} (f : nat -> X) (t : nat) (x : X) : nat -> X := fun u => if Nat.eqb u t then x else f u.
  Fixpoint set_nth (l : list conn) (n : nat) (x : conn) : list conn :=
    match l, n with [], _ => [] | _ :: r, 0 => x :: r | y :: r, S n => y :: set_nth r n x end.
  Definition get_conn (s : st) (c : nat) : conn := nth c (conns s) (mkConn false false).
  Definition go (s : st) (t : nat) (p : pc) : st := mkSt (server s) (conns s) (upd (pcs s) t p) (todo s).
  Definition put_conn (s : st) (c : nat) (x : conn) : st := mkSt (server s) (set_nth (conns s) c x) (pcs s) (todo s).

  (** smtp_dependency_wrapper.py 17-47: one step of thread [t]; [ok]: does the server obey. *)
  Definition step (s : st) (t : nat) (ok : bool) : option (st * list ev) :=
    match pcs s t with
    | PIdle => match todo s t with
               | [] => None
               | m :: r => Some (mkSt (server s) (conns s) (upd (pcs s) t (PConnect m)) (upd (todo s) t r), [])
               end
    | PConnect m =>                                                   (* 30 *)
        if ok then let c := length (conns s) in
                   Some (mkSt (Some c) (conns s ++ [mkConn true false]) (upd (pcs s) t (PLogin m)) (todo s), [EConnect t c])
        else Some (go s t PIdle, [EEnd t m false])
    | PLogin m =>                                                     (* 31 *)
        match server s with
        | None => Some (go s t PIdle, [EEnd t m false])
        | Some c => if ok && c_open (get_conn s c) then Some (go (put_conn s c (mkConn true true)) t (PMail m), [ELogin t c])
                    else Some (go s t PIdle, [EEnd t m false])
        end
    | PMail m =>                                                      (* 37 *)
        match server s with
        | None => Some (go s t PIdle, [EEnd t m false])
        | Some c => if ok && c_open (get_conn s c) then Some (go s t (PQuit m), [EMail t c m])
                    else Some (go s t PIdle, [EEnd t m false])
        end
    | PQuit m =>                                                      (* 43-47: exceptions are swallowed *)
        match server s with
        | None => Some (go s t PIdle, [EEnd t m true])
        | Some c => if ok && c_open (get_conn s c) then Some (go (put_conn s c (mkConn false (c_logged (get_conn s c)))) t PIdle, [EQuit t c; EEnd t m true])
                    else Some (go s t PIdle, [EEnd t m true])
        end
    end.

  Fixpoint run (s : st) (l : list (nat * bool)) : option (st * list ev) :=
    match l with
    | [] => Some (s, [])
    | (t, ok) :: r => match step s t ok with
                      | None => None
                      | Some (s1, e1) => match run s1 r with None => None | Some (s2, e2) => Some (s2, e1 ++ e2) end
                      end
    end.
  (** 10-15: the object as it is made: no connection. *)
  Definition start (p : nat -> list M) : st := mkSt None [] (fun _ => PIdle) p.
End Smtp.
