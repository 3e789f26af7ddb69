(** Model of the names of rotated files: polog/handlers/file/rotation/rotator.py (new_filename, do). *)
From Coq Require Import Ascii.
From Verif Require Import Base.
Local Open Scope char_scope.
Local Open Scope list_scope.

(** datetime.datetime.now(): a naive datetime; [valid] are the ranges the class guarantees (MINYEAR..MAXYEAR etc.; the number of
    days of the month does not matter here). *)
Record moment : Type := mkT { year : nat; month : nat; day : nat; hour : nat; minute : nat; second : nat; micro : nat }.

(** The digit characters; [%0kd] for numbers below 10^k. *)
Definition digit (n : nat) : ascii := ascii_of_nat (48 + n).
Fixpoint digits (k n : nat) : list ascii := match k with 0 => [] | S k => digits k (n / 10) ++ [digit (n mod 10)] end.
(** str of a natural number (no leading zeros); the fuel is the number itself plus one. *)
Fixpoint dec_fuel (f n : nat) : list ascii :=
  match f with 0 => [] | S f => (if Nat.ltb n 10 then [] else dec_fuel f (n / 10)) ++ [digit (n mod 10)] end.
Definition dec (n : nat) : list ascii := dec_fuel (S n) n.

(** str(datetime) = isoformat(' '): the microseconds are absent when zero (CPython datetime.__str__). *)
Definition str_moment (t : moment) : list ascii :=
  digits 4 (year t) ++ "-" :: digits 2 (month t) ++ "-" :: digits 2 (day t) ++ " " ::
  digits 2 (hour t) ++ ":" :: digits 2 (minute t) ++ ":" :: digits 2 (second t) ++
  (if Nat.eqb (micro t) 0 then [] else "." :: digits 6 (micro t)).
(** rotator.py 112: str(...).replace(' ', '_'). *)
Definition stamp (t : moment) : list ascii := map (fun c => if Ascii.eqb c " " then "_" else c) (str_moment t).
(** rotator.py 107-116: f'{stamp}_{process_id}.logs'. *)
Definition new_filename (t : moment) (pid : nat) : list ascii :=
  stamp t ++ "_" :: dec pid ++ ["."; "l"; "o"; "g"; "s"].
(** os.path.join (posixpath.py) of two parts. *)
Definition join (a b : list ascii) : list ascii :=
  match b with
  | "/" :: _ => b
  | _ => match a with
         | [] => b
         | _ => if Ascii.eqb (last a " ") "/" then a ++ b else a ++ "/" :: b
         end
  end.
(** rotator.py 53: os.path.join(self.to, self.new_filename()). *)
Definition rotated_path (to : list ascii) (t : moment) (pid : nat) : list ascii := join to (new_filename t pid).
