(** What a drawn tree looks like, in terms of paths. *)
From Verif Require Import Base Tree_Model Tree_Spec Draw_Model.
Local Open Scope string_scope.
Local Open Scope list_scope.

(** The line of a path: one tab per name in the path, then the last name (underlined); the tree itself is called ".".
    The signs of the terminal and the first line are written out here on their own. *)
Fixpoint tabs (n : nat) : string := match n with 0 => "" | S m => String "009" (tabs m) end.
Definition line (p : path) : string :=
  (tabs (length p) ++ String "|" (String "027" "[4m") ++ last p "." ++ String "027" "[0m")%string.
Definition first_line : string := ("<NamedTree:" ++ String "010" "")%string.

(** Each path of the list is a child of the path before it or of an ancestor of that path: every node comes after its parent, and
    everything below a node comes before the next node beside it. *)
Fixpoint preorder (a : path) (l : list path) : Prop :=
  match l with
  | [] => True
  | b :: r => (exists q k, (exists c, a = q ++ c) /\ b = q ++ [k]) /\ preorder b r
  end.

(** [text] draws the tree whose root is [r]: a line for the tree itself and one for each path that is in the tree. *)
Definition draws {V : Type} (kc : string -> bool) (h : heap V) (r : nat) (text : string) : Prop :=
  exists l : list path,
    text = (first_line ++ String.concat (String nl "") (map line ([] :: l)) ++ ">")%string /\
    NoDup l /\ preorder [] l /\
    (forall p, In p l -> p <> [] /\ exists k, parse kc k = Some p) /\
    (forall k p, parse kc k = Some p -> p <> [] -> (In p l <-> tree_contains kc h r k = Ok true)).
