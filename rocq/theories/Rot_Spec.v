(** What token patterns, rotation rules and lock specifications mean. *)
From Verif Require Import Base Text Rot_Model.
From Coq Require Import ZArith.
Local Open Scope list_scope.
Local Open Scope string_scope.

(** A letter that is not a bracket; a text without brackets. *)
Definition plain (c : ascii) : Prop := c <> "["%char /\ c <> "]"%char.
Fixpoint no_brackets (s : string) : Prop := match s with "" => True | String c r => plain c /\ no_brackets r end.
Definition opens (s : string) : Prop := match s with String c _ => c = "["%char | "" => False end.
Fixpoint brackets (vs : list string) : string :=
  match vs with [] => "" | v :: r => "[" ++ (v ++ ("]" ++ brackets r)) end.

(** The grammar of patterns: letters, each possibly followed by one or more bracketed values; every value
    after a letter is a separate element with that letter. *)
Inductive parses : string -> list runit -> Prop :=
| p_end : parses "" []
| p_plain : forall c r us, plain c -> ~ opens r -> parses r us -> parses (String c r) (mkUnit c None :: us)
| p_values : forall c vs r us, plain c -> c <> "*"%char -> vs <> [] -> Forall no_brackets vs -> ~ opens r -> parses r us ->
    parses (String c (brackets vs ++ r)) (map (fun v => mkUnit c (Some v)) vs ++ us)%list.
(** The same, ended by a bracket that is never closed: the unfinished element is dropped. *)
Inductive parses_open : string -> list runit -> Prop :=
| o_here : forall c vs v, plain c -> c <> "*"%char -> Forall no_brackets vs -> no_brackets v ->
    parses_open (String c (brackets vs ++ ("[" ++ v))) (map (fun v => mkUnit c (Some v)) vs)
| o_plain : forall c r us, plain c -> ~ opens r -> parses_open r us -> parses_open (String c r) (mkUnit c None :: us)
| o_values : forall c vs r us, plain c -> c <> "*"%char -> vs <> [] -> Forall no_brackets vs -> ~ opens r -> parses_open r us ->
    parses_open (String c (brackets vs ++ r)) (map (fun v => mkUnit c (Some v)) vs ++ us)%list.

(** One element against one token: '.' stands for any kind; a value must be the source text. *)
Definition element_ok (u : runit) (t : token) : Prop :=
  (letter u = "."%char \/ letter u = letter_of t) /\ (forall v, value u = Some v -> v = source t).

(** Glob matching: '*' stands for any number of tokens, also none. *)
Inductive gmatch : list runit -> list token -> Prop :=
| g_nil : gmatch [] []
| g_star0 : forall u us ts, letter u = "*"%char -> gmatch us ts -> gmatch (u :: us) ts
| g_star1 : forall u us t ts, letter u = "*"%char -> gmatch (u :: us) ts -> gmatch (u :: us) (t :: ts)
| g_one : forall u us t ts, letter u <> "*"%char -> element_ok u t -> gmatch us ts -> gmatch (u :: us) (t :: ts).

(** Units of size: the power of 1024 each spelling stands for. *)
Definition unit_power : list (string * nat) :=
  [("b", 0); ("byte", 0); ("bytes", 0); ("kb", 1); ("kilobyte", 1); ("kilobytes", 1); ("mb", 2); ("megabyte", 2); ("megabytes", 2);
   ("gb", 3); ("gigabyte", 3); ("gigabytes", 3); ("tb", 4); ("terabyte", 4); ("terabytes", 4); ("pb", 5); ("petabyte", 5); ("petabytes", 5)].

Section Rules.
  Variable sp : ascii -> bool.
  Variable int_of : string -> option Z.
  (** A rule text denotes a limit: a positive number and a unit, separated by white space. *)
  Definition denotes (text : string) (limit : Z) : Prop :=
    exists a b n p, words sp text = [a; b] /\ int_of a = Some n /\ (0 < n)%Z /\ In (b, p) unit_power /\
                    limit = (n * 1024 ^ Z.of_nat p)%Z.
  (** The rule texts of a command: what commas and semicolons separate, blank pieces left out. *)
  Fixpoint pieces_at (sep : ascii -> bool) (s : string) : list string :=
    match s with
    | "" => [""]
    | String a r => if sep a then "" :: pieces_at sep r
                    else match pieces_at sep r with h :: t => String a h :: t | [] => [String a ""] end
    end.
  Definition not_blank (s : string) : bool := match words sp s with [] => false | _ => true end.
  Definition rule_texts (s : string) : list string :=
    filter not_blank (pieces_at (fun c => Ascii.eqb c "," || Ascii.eqb c ";") s).
  (** The names of a lock specification. *)
  Definition lock_names (s : string) : list string := map (strip sp) (filter not_blank (pieces_at (fun c => Ascii.eqb c "+") s)).
End Rules.
