(** Model of polog/loggers/handle/smart_assert.py and of the point smart_assert_politic (settings_store.py 144-155). *)
From Verif Require Import Base.
Local Open Scope string_scope.
Local Open Scope list_scope.

(** A Python object as ass() sees it: is it a str (and which), what does str() give, what does bool() give.  Exceptions outside
    Exception (KeyboardInterrupt ...) are not modelled. *)
Record object : Type := mkO { o_text : option string; o_str : Res string; o_bool : Res bool }.

(** The two converted values of the setting: settings_store.py 151-152; the second argument is evaluated only if needed. *)
Inductive politic : Type := PAll | PIfDebug.
Definition run_politic (p : politic) (debug : bool) (x : object) : Res bool :=
  match p with
  | PAll => bindR (o_bool x) (fun b => Ok (negb b))
  | PIfDebug => if negb debug then bindR (o_bool x) (fun b => Ok (negb b)) else Ok false
  end.

(** str(x), or x itself when it is a str: smart_assert.py 50-62. *)
Definition as_text (x : object) : Res string := match o_text x with Some s => Ok s | None => o_str x end.
Definition default_message : string := "It is impossible to extract data for the log.".

(** smart_assert.py 37-65: get_message; [silent]: silent_internal_exceptions. *)
Definition get_message (silent : bool) (x : object) (more : list object) : Res string :=
  if (Nat.ltb 1 (length more) && negb silent)%bool then Err ETypeError
  else Ok match more with
          | m :: _ => match as_text m with
                      | Ok s => s
                      | Err _ => match as_text x with Ok s => s | Err _ => default_message end
                      end
          | [] => match as_text x with Ok s => s | Err _ => default_message end
          end.

Section Assert.
  Variable W : Type.                                  (* the rest of the program *)
  Variable write : W -> string -> W * Res unit.       (* log(message, exception=AssertionError(message)): see C34, C35 *)

  (** What happens: the calls of log with their messages. *)
  Definition record (w : W) (m : string) : W * list string * Res unit := let '(w1, r) := write w m in (w1, [m], r).

  (** smart_assert.py 22-33: the try block: lines 24-27. *)
  Definition body (p : politic) (debug : bool) (x : object) (m : string) (w : W) : W * list string * Res unit :=
    match run_politic p debug x with
    | Err e => (w, [], Err e)
    | Ok yes =>
        let '(w1, t1, r1) := if yes then record w m else (w, [], Ok tt) in
        match r1 with
        | Err e => (w1, t1, Err e)
        | Ok _ => if debug then match o_bool x with
                                | Err e => (w1, t1, Err e)
                                | Ok true => (w1, t1, Ok tt)
                                | Ok false => (w1, t1, Err EAssertionError)
                                end
                  else (w1, t1, Ok tt)
        end
    end.
  (** smart_assert.py 17-33: __call__; the except clause: lines 28-31. *)
  Definition ass (p : politic) (debug silent : bool) (x : object) (more : list object) (w : W) : W * list string * Res unit :=
    match get_message silent x more with
    | Err e => (w, [], Err e)
    | Ok m =>
        let '(w1, t1, r1) := body p debug x m w in
        match r1 with
        | Ok _ => (w1, t1, Ok tt)
        | Err _ => if debug then let '(w2, t2, r2) := record w1 m in
                                 (w2, t1 ++ t2, match r2 with Ok _ => Err EAssertionError | Err e => Err e end)
                   else (w1, t1, Ok tt)
        end
    end.
End Assert.
