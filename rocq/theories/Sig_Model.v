(** Model of polog/core/utils/signature_matcher.py. A callable is seen through the parameters that inspect.Signature reports for it: name, kind
    and whether there is a default (the comparison of a default with Parameter.empty is taken to be faithful, i.e. no default has an odd __eq__). *)
From Verif Require Import Base.
Local Open Scope string_scope.
Local Open Scope list_scope.

Inductive pkind : Type := PositionalOnly | PositionalOrKeyword | VarPositional | KeywordOnly | VarKeyword.
Record param : Type := mkP { pname : string; kind : pkind; has_default : bool }.
(** An object: not callable; callable without a signature (Signature.from_callable raises ValueError); callable with parameters. *)
Inductive obj : Type := NotCallable | Unreadable | Callable (ps : list param).

Section Matcher.
  (** str.isidentifier. *)
  Variable isident : string -> bool.

  (** signature_matcher.py 9-30 *)
  Record matcher : Type := mkM { is_args : bool; is_kwargs : bool; number_of_position_args : nat; number_of_named_args : nat; names_of_named_args : list string }.
  Definition init (args : list string) : matcher :=
    mkM (existsb (String.eqb "*") args) (existsb (String.eqb "**") args)
        (length (filter (String.eqb ".") args)) (length (filter isident args))
        (nodup string_dec (filter isident args)).

  Definition is_positional (p : param) : bool := match kind p with PositionalOnly | PositionalOrKeyword => true | _ => false end.
  Definition is_named (p : param) : bool := match kind p with KeywordOnly | PositionalOrKeyword => true | _ => false end.
  Definition is_var_positional (p : param) : bool := match kind p with VarPositional => true | _ => false end.
  Definition is_var_keyword (p : param) : bool := match kind p with VarKeyword => true | _ => false end.
  Definition nonempty {B} (l : list B) : bool := match l with [] => false | _ => true end.

  (** 48-52, 54-58, 60-64, 66-70, 72-80 *)
  Definition prove_is_args (m : matcher) (ps : list param) : bool := Bool.eqb (is_args m) (nonempty (filter is_var_positional ps)).
  Definition prove_is_kwargs (m : matcher) (ps : list param) : bool := Bool.eqb (is_kwargs m) (nonempty (filter is_var_keyword ps)).
  Definition prove_number_of_position_args (m : matcher) (ps : list param) : bool :=
    Nat.eqb (number_of_position_args m) (length (filter (fun p => is_positional p && negb (has_default p)) ps)).
  Definition prove_number_of_named_args (m : matcher) (ps : list param) : bool :=
    Nat.eqb (number_of_named_args m) (length (filter (fun p => is_named p && has_default p) ps)).
  Definition prove_names_of_named_args (m : matcher) (ps : list param) : bool :=
    forallb (fun n => existsb (String.eqb n) (map pname (filter (fun p => is_named p && has_default p) ps))) (names_of_named_args m).

  (** 32-46 *)
  Definition match_ (m : matcher) (f : obj) : Res bool :=
    match f with
    | NotCallable | Unreadable => Err EValueError
    | Callable ps => Ok (prove_is_args m ps && prove_is_kwargs m ps && prove_number_of_position_args m ps && prove_number_of_named_args m ps &&
                         prove_names_of_named_args m ps)
    end.
  (** 82-97 *)
  Definition is_handler (f : obj) (raise_exception : bool) : Res bool :=
    match match_ (init ["."]) f with
    | Ok b => Ok b
    | Err e => if raise_exception then Err e else Ok false
    end.
End Matcher.
