(** Model of the rotation rules: tokens and their patterns
    (polog/handlers/file/rotation/rules/rules/tokenization/, below "tok/"), the size rule, the rule elector,
    the parser and the reading of the rotation command (rotation/rotator.py); and of the lock specification
    (polog/handlers/file/locks/double_lock.py 33-59). *)
From Verif Require Import Base Text.
From Coq Require Import ZArith.
Local Open Scope list_scope.
Local Open Scope string_scope.

(** tok/tokens/*.py: a token keeps its source text; its letter is the class's regexp_letter. *)
Inductive content : Type := CSize (bytes : Z) | CNum (n : Z) | CDot.
Record token : Type := mkTok { source : string; cont : content }.
Definition letter_of (t : token) : ascii :=
  match cont t with CSize _ => "s"%char | CNum _ => "n"%char | CDot => "d"%char end.

(** tok/tokens/tokens_group.py 5: regexp_unit. *)
Record runit : Type := mkUnit { letter : ascii; value : option string }.
Definition is_star (u : runit) : bool := Ascii.eqb (letter u) "*".

(** tokens_group.py 106-135: compare_token_and_unit. *)
Definition cmp (u : runit) (t : token) : bool :=
  if Ascii.eqb (letter u) "*" then true
  else if Ascii.eqb (letter u) "." then
    match value u with Some v => String.eqb v (source t) | None => true end
  else if negb (Ascii.eqb (letter u) (letter_of t)) then false
  else match value u with Some v => String.eqb v (source t) | None => true end.

(** tokens_group.py 53-70: reduce_regexp. *)
Fixpoint reduce (us : list runit) : list runit :=
  match us with
  | [] => []
  | u :: r => if is_star u then
                match r with
                | [] => [u]
                | n :: _ => if is_star n then reduce r else u :: reduce r
                end
              else u :: reduce r
  end.

(** tokens_group.py 72-104: regexp_loop.  The indices are replaced by the suffixes they select; indexing an
    empty suffix is the IndexError of Python.  RecursionError (tokens_group.py 50-51) is not modelled. *)
Fixpoint rloop (re : list runit) (ts : list token) {struct re} : Res bool :=
  match re with
  | [] => Err EIndexError
  | u :: re' =>
      match re' with
      | [] => match ts with [t] => Ok (cmp u t) | _ => Ok (is_star u) end
      | v :: r =>
          match ts with
          | [t] => if is_star u then rloop re' ts
                   else if cmp u t then Ok (match r with [] => is_star v | _ => false end) else Ok false
          | _ => if is_star u then
                   (fix each (ts : list token) : Res bool :=
                      match ts with
                      | [] => Ok false
                      | _ :: ts' => match rloop re' ts with Ok true => Ok true | Ok false => each ts' | Err e => Err e end
                      end) ts
                 else match ts with
                      | [] => Err EIndexError
                      | t :: ts' => if cmp u t then rloop re' ts' else Ok false
                      end
          end
      end
  end.

(** tokens_group.py 156-190: get_regexp_unit.  [inside]: what is between the brackets so far; None is
    bracket_flag = False. *)
Definition get_unit (c : ascii) (base : option ascii) (next : option ascii) (inside : option string)
  : Res (option runit * option string * option ascii) :=
  if Ascii.eqb c "[" then
    match inside with
    | Some _ => Err EValueError
    | None => match base with
              | None => Err EValueError
              | Some b => if Ascii.eqb b "*" then Err EValueError else Ok (None, Some "", base)
              end
    end
  else if Ascii.eqb c "]" then
    match inside with
    | None => Err EValueError
    | Some v => Ok (match base with Some b => Some (mkUnit b (Some v)) | None => None end, None, base)
    end
  else
    match inside with
    | Some v => Ok (None, Some (v ++ String c ""), base)
    | None => Ok (match next with
                  | Some n => if Ascii.eqb n "[" then None else Some (mkUnit c None)
                  | None => Some (mkUnit c None)
                  end, None, Some c)
    end.

(** tokens_group.py 137-154: parse_regexp. *)
Fixpoint parse_loop (s : string) (base : option ascii) (inside : option string) : Res (list runit) :=
  match s with
  | "" => Ok []
  | String c r =>
      let next := match r with "" => None | String n _ => Some n end in
      match get_unit c base next inside with
      | Err e => Err e
      | Ok (u, inside', base') =>
          match parse_loop r base' inside' with
          | Err e => Err e
          | Ok us => Ok (match u with Some u => u :: us | None => us end)
          end
      end
  end.
Definition parse_regexp (s : string) : Res (list runit) := parse_loop s None None.

(** tokens_group.py 39-51: check_regexp. *)
Definition check_regexp (ts : list token) (re : string) : Res bool :=
  match re with
  | "" => Ok true
  | _ => match parse_regexp re with Err e => Err e | Ok us => rloop (reduce us) ts end
  end.

Section Rules.
  Variable sp : ascii -> bool.                 (* str.isspace of a character *)
  Variable int_of : string -> option Z.        (* int(text); None: ValueError *)

  (** tok/tokens/size_token.py 11-27. *)
  Definition short_sizes : list (string * Z) :=
    [("b", 1%Z); ("kb", 1024%Z); ("mb", (1024 * 1024)%Z); ("gb", (1024 * 1024 * 1024)%Z);
     ("tb", (1024 * 1024 * 1024 * 1024)%Z); ("pb", (1024 * 1024 * 1024 * 1024 * 1024)%Z)].
  Definition full_sizes : list (string * Z) :=
    [("byte", 1%Z); ("kilobyte", 1024%Z); ("megabyte", (1024 * 1024)%Z); ("gigabyte", (1024 * 1024 * 1024)%Z);
     ("terabyte", (1024 * 1024 * 1024 * 1024)%Z); ("petabyte", (1024 * 1024 * 1024 * 1024 * 1024)%Z)].
  (** size_token.py 47-55: get_all_keys, and 29-34: its_me. *)
  Definition size_keys : list string :=
    dkeys short_sizes ++ (dkeys full_sizes ++ map (fun k => (k ++ "s")%string) (dkeys full_sizes))%list.
  Definition size_its_me (s : string) : bool := existsb (String.eqb s) size_keys.
  (** source[:-1] and endswith('s'). *)
  Fixpoint but_last (s : string) : string := match s with "" => "" | String a "" => "" | String a r => String a (but_last r) end.
  Fixpoint ends_s (s : string) : bool := match s with "" => false | String a "" => Ascii.eqb a "s" | String _ r => ends_s r end.
  (** size_token.py 36-45: parse; falling through returns None. *)
  Definition size_parse (s : string) : Res (option Z) :=
    match dget String.eqb short_sizes s with
    | Some z => Ok (Some z)
    | None => match dget String.eqb full_sizes s with
              | Some z => Ok (Some z)
              | None => if ends_s s then match dget String.eqb full_sizes (but_last s) with
                                         | Some z => Ok (Some z)
                                         | None => Err EKeyError
                                         end
                        else Ok None
              end
    end.

  (** tok/tokenizator.py 21-39: each chunk becomes the first token class that accepts it
      (abstract_token.py 22-34: not its_me, or an exception in parse, refuses); number_token.py 7-16;
      dot_token.py accepts everything.  A size token whose parse returns None does not occur. *)
  Definition tokenize1 (w : string) : token :=
    match (if size_its_me w then size_parse w else Err EValueError) with
    | Ok (Some z) => mkTok w (CSize z)
    | Ok None => mkTok w (CSize 0)
    | Err _ => match int_of w with Some n => mkTok w (CNum n) | None => mkTok w CDot end
    end.
  Definition tokenize (s : string) : list token := map tokenize1 (words sp s).

  (** tokens_group.py 32-33 with [0]: the first token with a letter. *)
  Fixpoint first_num (ts : list token) : Res Z :=
    match ts with [] => Err EIndexError | t :: r => match cont t with CNum n => Ok n | _ => first_num r end end.
  Fixpoint first_size (ts : list token) : Res Z :=
    match ts with [] => Err EIndexError | t :: r => match cont t with CSize z => Ok z | _ => first_size r end end.

  (** rules/rules/file_size_rule.py 9-14: prove_source; 20-30: extract_data_from_string (the limit). *)
  Definition prove_source (ts : list token) : Res bool :=
    match check_regexp ts "ns" with
    | Err e => Err e
    | Ok false => Ok false
    | Ok true => match first_num ts with Err e => Err e | Ok n => Ok (negb (n <=? 0)%Z) end
    end.
  Definition size_limit (ts : list token) : Res Z :=
    match first_num ts, first_size ts with
    | Ok n, Ok d => Ok (n * d)%Z
    | Err e, _ => Err e
    | _, Err e => Err e
    end.
  (** rules/rules_elector.py 12-23 with the one rule class, abstract_rule.py 17-22. *)
  Definition choose (src : string) : Res Z :=
    let ts := tokenize src in
    match prove_source ts with
    | Err e => Err e
    | Ok false => Err EValueError
    | Ok true => size_limit ts
    end.

  (** rotation/parser.py 23-28: split_source; 12-21: extract_rules. *)
  Definition split_source (s : string) : list string :=
    filter (fun x => match x with "" => false | _ => true end) (map (strip sp) (split_char "," (replace_char ";" "," s))).
  Fixpoint choose_all (l : list string) : Res (list Z) :=
    match l with
    | [] => Ok []
    | x :: r => match choose x with
                | Err e => Err e
                | Ok z => match choose_all r with Err e => Err e | Ok zs => Ok (z :: zs) end
                end
    end.
  Definition extract_rules (s : string) : Res (list Z) := choose_all (split_source s).

  (** rotation/rotator.py 91-112: extract_rules_string_from_source; 64-89: where_to_rotate. *)
  Definition rules_string (src : option string) : Res (option string) :=
    match src with
    | None => Ok None
    | Some s => match split_gg s with
                | [_] => Ok (Some s)
                | [a; _] => match a with "" => Ok None | _ => Ok (Some a) end
                | _ => Err EValueError
                end
    end.
  Definition where_to_rotate (src : option string) : Res string :=
    match src with
    | None => Ok "logs"
    | Some s => match split_gg s with
                | [_] => Ok "logs"
                | [_; b] => match b with "" => Ok "logs" | _ => Ok (strip sp b) end
                | _ => Err EValueError
                end
    end.
  (** rotator.py 19-27: __init__: the limits and the directory; [has_file]: file.filename is not None. *)
  Definition rotator_init (src : option string) (has_file : bool) : Res (list Z * string) :=
    if (match src with Some (String _ _) => negb has_file | _ => false end) then Err EValueError
    else match rules_string src with
         | Err e => Err e
         | Ok rs => match where_to_rotate src with
                    | Err e => Err e
                    | Ok dir => match rs with
                                | None => Ok ([], dir)
                                | Some r => match extract_rules r with Err e => Err e | Ok zs => Ok (zs, dir) end
                                end
                    end
         end.
  (** rotator.py 39-46: to_do_or_not_to_do, with file_size_rule.py 16-18. *)
  Definition must_rotate (limits : list Z) (size : Z) : bool := existsb (fun l => (l <=? size)%Z) limits.

  (** *** locks/double_lock.py 33-59: get_lock_types; result.sort() of distinct names. *)
  Inductive lock_arg : Type := LNone | LStr (s : string) | LOther.
  Fixpoint lock_loop (l : list string) (seen : list string) : Res (list string) :=
    match l with
    | [] => Ok seen
    | x :: r => if negb (String.eqb x "file" || String.eqb x "thread") then Err EValueError
                else if existsb (String.eqb x) seen then Err EValueError
                else lock_loop r (seen ++ [x])%list
    end.
  Fixpoint insert (x : string) (l : list string) : list string :=
    match l with [] => [x] | y :: r => if String.leb x y then x :: l else y :: insert x r end.
  Definition sort (l : list string) : list string := fold_right insert [] l.
  Definition get_lock_types (a : lock_arg) : Res (list string) :=
    match a with
    | LNone => Ok []
    | LOther => Err EValueError
    | LStr s =>
        if blank sp s then Err EValueError
        else match lock_loop (filter (fun x => match x with "" => false | _ => true end) (map (strip sp) (split_char "+" s))) [] with
             | Err e => Err e
             | Ok l => Ok (sort l)
             end
    end.
End Rules.
