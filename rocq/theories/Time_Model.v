(** Model of BaseFormatterFieldsExtractors.time_of_work (polog/handlers/file/base_formatter_fields_extractors.py 207-219): the duration in a log line.
    A duration is a number of units of 10^-k seconds, k = 8 in the code: what f'{var:.8f}' rounds to (that rounding is Python's). *)
From Coq Require Import Ascii.
From Verif Require Import Base Name_Model.
Local Open Scope char_scope.
Local Open Scope list_scope.

(** f'{var:.kf}' of (-)n / 10^k *)
Definition fixed (k : nat) (neg : bool) (n : nat) : list ascii :=
  (if neg then ["-"] else []) ++ dec (n / 10 ^ k) ++ "." :: digits k (n mod 10 ^ k).
(** str.rstrip with a set of characters *)
Fixpoint lstrip (set : ascii -> bool) (l : list ascii) : list ascii := match l with [] => [] | c :: r => if set c then lstrip set r else l end.
Definition rstrip (set : ascii -> bool) (l : list ascii) : list ascii := rev (lstrip set (rev l)).
(** 216-217: number.rstrip('0.') *)
Definition zero_or_dot (c : ascii) : bool := Ascii.eqb c "0" || Ascii.eqb c ".".
Definition number (k : nat) (neg : bool) (n : nat) : list ascii := rstrip zero_or_dot (fixed k neg n).
