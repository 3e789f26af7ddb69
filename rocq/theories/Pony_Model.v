(** Model of polog/core/utils/pony_names_generator.py. *)
From Coq Require Import Ascii.
From Verif Require Import Base.
Local Open Scope string_scope.
Local Open Scope list_scope.

(** pony_names_generator.py 72-81: halfs_combinations, without the container: f'{prefix}{half}{half_2}'. *)
Definition halfs_combinations (first_halfs second_halfs : list string) (prefix : string) : list string :=
  flat_map (fun h => map (fun h2 => String.append prefix (String.append h h2)) second_halfs) first_halfs.
(** 27-69: new_names_portion. *)
Definition new_names_portion : list string :=
  halfs_combinations ["Twilight"; "Apple"; "Flutter"; "Rari"; "Pinkie"; "Rainbow"; "Derpy"] [" Sparkle"; "jack"; "shy"; "ty"; " Pie"; " Dash"; " Hooves"] "" ++
  halfs_combinations ["Cad"; "Sky"; "Amo"; "Cele"; "Lu"] ["ance"; "star"; "re"; "stia"; "na"] "Princess ".

Definition ones : list string := [""; "I"; "II"; "III"; "IV"; "V"; "VI"; "VII"; "VIII"; "IX"].
Definition tens : list string := [""; "X"; "XX"; "XXX"; "XL"; "L"; "LX"; "LXX"; "LXXX"; "XC"].
Definition hunds : list string := [""; "C"; "CC"; "CCC"; "CD"; "D"; "DC"; "DCC"; "DCCC"; "CM"].
Definition thous : list string := [""; "M"; "MM"; "MMM"; "MMMM"].
(** l[i] of a list *)
Definition item (l : list string) (i : nat) : Res string := match nth_error l i with Some s => Ok s | None => Err EIndexError end.
(** 83-98: roman_numerals; None for zero: written 'None' by the f-string; only called with epoch + 1 >= 2. *)
Definition roman_numerals (n : nat) : Res string :=
  if Nat.ltb 0 n then
    bindR (item thous (n / 1000)) (fun t => bindR (item hunds (n / 100 mod 10)) (fun h =>
    bindR (item tens (n / 10 mod 10)) (fun e => bindR (item ones (n mod 10)) (fun o =>
    Ok (String.append t (String.append h (String.append e o)))))))
  else Ok "None".

Section Generator.
  (** random.shuffle: the order of the names in each epoch. *)
  Variable shuffled : nat -> list string.

  (** 19-23: what is yielded in one epoch. *)
  Definition one_name (epoch : nat) (name : string) : Res string :=
    match epoch with
    | 0 => Ok name
    | _ => bindR (roman_numerals (epoch + 1)) (fun r => Ok (String.append name (String.append " " r)))
    end.
  (** 6-25: what the first [k] epochs give: names, or the exception that ends the generator.  CPython's limit of recursion stops it
      earlier, about epoch 1000; nothing is stated about when. *)
  Fixpoint epochs (from k : nat) : list (Res string) :=
    match k with 0 => [] | S k => map (one_name from) (shuffled from) ++ epochs (S from) k end.
  Definition get_next_pony (k : nat) : list (Res string) := epochs 0 k.
End Generator.

(** config.py 96, function_logger.py 279: .replace(' ', '_'). *)
Fixpoint replace_spaces (s : string) : string :=
  match s with EmptyString => EmptyString | String c r => String (if Ascii.eqb c " " then "_"%char else c) (replace_spaces r) end.
