(** Model of the text of a tree: str(tree), polog/data_structures/trees/named_tree: printer.py, walker.py 33-49, tree.py 152-159 and 274-296.
    Not modelled: the limit of recursion of Python (printer.py 34-35); [filler] is its default, the tab (printer.py 5). *)
From Verif Require Import Base Tree_Model.
Local Open Scope string_scope.
Local Open Scope list_scope.

Definition tab : ascii := "009"%char.
Definition nl : ascii := "010"%char.
Definition esc : ascii := "027"%char.

(** str * int, and str.count of a text of one character. *)
Fixpoint times (n : nat) (s : string) : string := match n with 0 => "" | S m => (s ++ times m s)%string end.
Fixpoint count_char (c : ascii) (s : string) : nat :=
  match s with EmptyString => 0 | String a r => (if Ascii.eqb a c then 1 else 0) + count_char c r end.

(** '|\033[4m' and '\033[0m' (printer.py 32). *)
Definition opening : string := String "|" (String esc "[4m").
Definition closing : string := String esc "[0m".
Definition header : string := ("<NamedTree:" ++ String nl "")%string.
Definition empty_text : string := "<NamedTree empty object>".

Section Draw.
  Context {V : Type}.
  Implicit Types (h : heap V).

  (** walker.py 41-49: _recursive_dfs; [None] only if the fuel (the depth) runs out. *)
  Fixpoint gather {A} (l : list (option (list A))) : option (list A) :=
    match l with
    | [] => Some []
    | Some a :: r => match gather r with Some b => Some (a ++ b) | None => None end
    | None :: _ => None
    end.
  Fixpoint dfs (fuel : nat) h (n : nat) : option (list nat) :=
    match fuel with
    | 0 => None
    | S f => match gather (map (dfs f h) (dvals (nchilds (hget h n)))) with
             | Some l => Some (n :: l)
             | None => None
             end
    end.

  (** tree.py 285-289: the names met on the way up, the node's own name first. *)
  Fixpoint climb (fuel : nat) h (n : nat) : option (list string) :=
    match nname (hget h n) with
    | None => Some []
    | Some k => match nparent (hget h n) with
                | None => Some [k]
                | Some p => match fuel with
                            | 0 => None
                            | S f => match climb f h p with Some l => Some (k :: l) | None => None end
                            end
                end
    end.
  (** tree.py 274-296: get_full_name with default=None; str.join. *)
  Definition get_full_name h (n : nat) : option string :=
    match climb (length h) h n with
    | None => None
    | Some [] => Some sep
    | Some l => Some (String.concat sep (rev l))
    end.

  (** printer.py 28-33: the line of a node. *)
  Definition node_line h (n : nat) : option string :=
    match get_full_name h n with
    | None => None
    | Some full =>
        let indent := if String.eqb full sep then 0 else count_char dot full + 1 in
        let name := match nname (hget h n) with Some k => k | None => sep end in
        Some (times indent (String tab "") ++ opening ++ name ++ closing)%string
    end.
  Fixpoint all_lines h (ns : list nat) : option (list string) :=
    match ns with
    | [] => Some []
    | n :: r => match node_line h n, all_lines h r with
                | Some a, Some b => Some (a :: b)
                | _, _ => None
                end
    end.

  (** printer.py 9-38: get_indented_representation. *)
  Definition tree_str h (self : nat) : Res string :=
    match tree_len h self with
    | Err e => Err e
    | Ok 0 => Ok empty_text
    | Ok _ => match dfs (fuel_of h) h self with
              | None => Err EOutOfFuel
              | Some ns => match all_lines h ns with
                           | None => Err EOutOfFuel
                           | Some ls => Ok (header ++ String.concat (String nl "") ls ++ ">")%string
                           end
              end
    end.
End Draw.
