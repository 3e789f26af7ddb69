(** Model of polog/handlers/abstract/base.py: the base class of the handlers. *)
From Verif Require Import Base.
Local Open Scope string_scope.
Local Open Scope list_scope.

Section Handlers.
  Variables W V C : Type.                 (* the world of user code, values of fields, contents *)
  Variable truthy : V -> bool.            (* bool(value) *)
  Variable is_exception : exn -> bool.    (* issubclass(type(e), Exception): false for KeyboardInterrupt, SystemExit... *)

  (** A record, as the handler sees it (read-only, C53). *)
  Definition log : Type := list (string * V).
  (** What a user's filter returns: base.py 61 distinguishes only bool and the rest. *)
  Inductive answer : Type := ABool (b : bool) | AOther.

  (** base.py 23-31: the attributes of the object; [get_content] and [do] are those of the subclass.  An alternative is
      any function, or a handler again.  An alternative that leads back to the same handler is not representable. *)
  Inductive handler : Type :=
  | H (name : nat) (only_errors : bool) (flt : option (W -> log -> W * Res answer))
      (get_content : W -> log -> W * Res C) (do : W -> C -> W * Res unit) (alt : alternative)
  with alternative : Type :=
  | ANone | AFun (f : W -> log -> W * Res unit) | AHandler (h : handler).

  (** Calls of user code, in order; [EAlt n]: the alternative function of handler n. *)
  Inductive ev : Type := EFilter (n : nat) | EContent (n : nat) | EDo (n : nat) | EAlt (n : nat).

  (** base.py 46-63: to_do_or_not_to_do. *)
  Definition to_do (n : nat) (oe : bool) (flt : option (W -> log -> W * Res answer)) (w : W) (l : log)
    : W * list ev * Res bool :=
    if (oe && match dget String.eqb l "success" with Some v => truthy v | None => true end)%bool then (w, [], Ok false)
    else match flt with
         | None => (w, [], Ok true)
         | Some f => let '(w1, r) := f w l in
                     (w1, [EFilter n], match r with Ok (ABool b) => Ok b | Ok AOther => Ok true | Err e => Err e end)
         end.

  (** base.py 33-44: __call__; 65-72: run_alt.  The returned value of the alternative is dropped (simplified). *)
  Fixpoint call (h : handler) (w : W) (l : log) : W * list ev * Res unit :=
    let '(H n oe flt get_content do alt) := h in
    let run_alt (w : W) : W * list ev * Res unit :=
      match alt with
      | ANone => (w, [], Ok tt)
      | AFun f => let '(w1, r) := f w l in (w1, [EAlt n], r)
      | AHandler g => call g w l
      end in
    let '(w1, t1, d) := to_do n oe flt w l in
    match d with
    | Err e => (w1, t1, Err e)
    | Ok false => let '(w2, t2, r) := run_alt w1 in (w2, t1 ++ t2, r)
    | Ok true =>
        let '(w2, c) := get_content w1 l in
        match c with
        | Err e => if is_exception e
                   then let '(w3, t3, r) := run_alt w2 in (w3, t1 ++ [EContent n] ++ t3, r)
                   else (w2, t1 ++ [EContent n], Err e)
        | Ok c =>
            let '(w3, r) := do w2 c in
            match r with
            | Ok _ => (w3, t1 ++ [EContent n; EDo n], Ok tt)
            | Err e => if is_exception e
                       then let '(w4, t4, r) := run_alt w3 in (w4, t1 ++ [EContent n; EDo n] ++ t4, r)
                       else (w3, t1 ++ [EContent n; EDo n], Err e)
            end
        end
    end.

  (** base.py 17-31, 92-107: the arguments and their checks; a function argument is None, something that
      SignatureMatcher.is_handler accepts, or something else. *)
  Inductive flag : Type := GBool (b : bool) | GOther.
  Inductive farg (A : Type) : Type := PNone | PGood (f : A) | PBad.
  Arguments PNone {A}. Arguments PGood {A} f. Arguments PBad {A}.
  Definition make (n : nat) (oe : flag) (flt : farg (W -> log -> W * Res answer))
      (get_content : W -> log -> W * Res C) (do : W -> C -> W * Res unit) (alt : farg alternative) : Res handler :=
    match oe, flt, alt with
    | GOther, _, _ | _, PBad, _ | _, _, PBad => Err EValueError
    | GBool b, f, a => Ok (H n b match f with PGood f => Some f | _ => None end get_content do match a with PGood a => a | _ => ANone end)
    end.
End Handlers.
Arguments PNone {A}. Arguments PGood {A} f. Arguments PBad {A}.
