(** Model of polog/data_structures/trees/named_tree (tree.py, walker.py, projector.py).

    Nodes live in an explicit heap (a list; a node's identity is its index), because the
    projection of a tree shares node objects with its source.  Nodes are never freed:
    an unreachable node is simply not reached any more.
    Simplified: locks are not modelled here (every method body below runs under the
    node's RLock); [keys_separator] is fixed to its default "." (the only value used by
    polog: core/stores/handlers.py 5-7 and projector.py 24 use the default). *)
From Verif Require Import Base.

(** tree.py 298-317 uses str.split(separator). *)
Fixpoint split_on (c : ascii) (s : string) : list string :=
  match s with
  | EmptyString => [EmptyString]
  | String a r =>
      if Ascii.eqb a c then EmptyString :: split_on c r
      else match split_on c r with
           | [] => [String a EmptyString]            (* unreachable: split_on is never [] *)
           | w :: ws => String a w :: ws
           end
  end.

Definition dot : ascii := "."%char.
Definition sep : string := ".".

(** A key passed by the user: a str, or an object of another type. *)
Inductive pykey : Type := KStr (s : string) | KOther.

Section Tree.
  Context {V : Type}.
  (** tree.py 49: key_checker (default str.isidentifier) and value_checker, arbitrary callables.
      Simplified: they are total and do not raise. *)
  Variable key_checker : string -> bool.
  Variable value_checker : V -> bool.

  (** tree.py 49-60: the fields of a node ([value] None is the empty node). *)
  Record node : Type := mkNode {
    nval : option V;
    nchilds : list (string * nat);
    nparent : option nat;
    nname : option string
  }.

  Definition heap : Type := list node.
  Definition dummy : node := mkNode None [] None None.
  Definition hget (h : heap) (i : nat) : node := nth i h dummy.
  Fixpoint hset (h : heap) (i : nat) (n : node) : heap :=
    match h, i with
    | [], _ => []
    | _ :: r, 0 => n :: r
    | x :: r, S j => x :: hset r j n
    end.

  (** tree.py 49-60: NamedTree() with no parent. *)
  Definition new_root (h : heap) : heap * nat := (h ++ [mkNode None [] None None], length h).

  Definition set_val (h : heap) (i : nat) (v : option V) : heap :=
    let n := hget h i in hset h i (mkNode v (nchilds n) (nparent n) (nname n)).
  Definition set_childs (h : heap) (i : nat) (cs : list (string * nat)) : heap :=
    let n := hget h i in hset h i (mkNode (nval n) cs (nparent n) (nname n)).

  (** tree.py 298-317: get_converted_keys. *)
  Definition get_converted_keys (k : pykey) : Res (list string) :=
    match k with
    | KOther => Err EKeyError
    | KStr s =>
        if String.eqb s sep then Ok [s]
        else let keys := split_on dot s in
             if forallb key_checker keys then Ok keys else Err EKeyError
    end.

  (** tree.py 220-226: the loop of search_node. *)
  Fixpoint walk (h : heap) (n : nat) (keys : list string) : option nat :=
    match keys with
    | [] => Some n
    | k :: ks => match dget String.eqb (nchilds (hget h n)) k with
                 | None => None
                 | Some c => walk h c ks
                 end
    end.

  (** tree.py 208-226: search_node. *)
  Definition search_node (h : heap) (self : nat) (keys : list string) : option nat :=
    match keys with
    | [] => None
    | [k] => if String.eqb k sep then Some self else walk h self keys
    | _ => walk h self keys
    end.

  (** tree.py 246-272: create_child.  The "already has a child" ValueError cannot occur at the two
      call sites, which have just seen childs.get(name) is None. *)
  Definition create_child (h : heap) (self : nat) (name : string) : heap * nat :=
    let c := length h in
    let h1 := set_childs h self (dset String.eqb (nchilds (hget h self)) name c) in
    (h1 ++ [mkNode None [] (Some self) (Some name)], c).

  (** tree.py 238-244: the loop of search_or_create_node. *)
  Fixpoint walk_create (h : heap) (n : nat) (keys : list string) : heap * nat :=
    match keys with
    | [] => (h, n)
    | k :: ks => match dget String.eqb (nchilds (hget h n)) k with
                 | Some c => walk_create h c ks
                 | None => let (h', c) := create_child h n k in walk_create h' c ks
                 end
    end.

  (** tree.py 228-244: search_or_create_node. *)
  Definition search_or_create_node (h : heap) (self : nat) (keys : list string) : heap * nat :=
    match keys with
    | [k] => if String.eqb k sep then (h, self) else walk_create h self keys
    | _ => walk_create h self keys
    end.

  (** walker.py 8-21: bfs, layer by layer; [None] only if the fuel (number of layers) runs out. *)
  Fixpoint bfs (fuel : nat) (h : heap) (layer : list nat) : option (list nat) :=
    match layer with
    | [] => Some []
    | _ => match fuel with
           | 0 => None
           | S f => match bfs f h (flat_map (fun n => dvals (nchilds (hget h n))) layer) with
                    | None => None
                    | Some r => Some (layer ++ r)
                    end
           end
    end.

  (** walker.py 23-31: bfs_values. *)
  Fixpoint somes {A} (l : list (option A)) : list A :=
    match l with [] => [] | Some a :: r => a :: somes r | None :: r => somes r end.
  Definition fuel_of (h : heap) : nat := 2 * length h + 2.
  Definition bfs_values (h : heap) (self : nat) : option (list V) :=
    match bfs (fuel_of h) h [self] with
    | None => None
    | Some ns => Some (somes (map (fun n => nval (hget h n)) ns))
    end.

  (** tree.py 109-118: iterating the tree (the generator is run to the end without mutation between). *)
  Definition tree_iter (h : heap) (self : nat) : Res (list V) :=
    match bfs_values h self with None => Err EOutOfFuel | Some l => Ok l end.
  (** tree.py 95-107: __len__. *)
  Definition tree_len (h : heap) (self : nat) : Res nat :=
    match bfs_values h self with None => Err EOutOfFuel | Some l => Ok (length l) end.

  (** tree.py 176-180: one scan of parent.childs; [SBreak]: a child is break_on. *)
  Inductive scan_res : Type := SFuel | SBreak | SDel (names : list string).
  Fixpoint scan (h : heap) (break_on : nat) (cs : list (string * nat)) : scan_res :=
    match cs with
    | [] => SDel []
    | (k, c) :: r =>
        if Nat.eqb c break_on then SBreak
        else match tree_len h c with
             | Err _ => SFuel
             | Ok n => match scan h break_on r with
                       | SDel names => SDel (if Nat.eqb n 0 then k :: names else names)
                       | x => x
                       end
             end
    end.

  (** tree.py 171-183: cut_empty_branch; fuel bounds the climb. *)
  Fixpoint cut (fuel : nat) (h : heap) (n : nat) (break_on : nat) : Res heap :=
    match fuel with
    | 0 => Err EOutOfFuel
    | S f =>
        match nparent (hget h n) with
        | None => Ok h
        | Some p =>
            match scan h break_on (nchilds (hget h p)) with
            | SFuel => Err EOutOfFuel
            | SBreak => Ok h
            | SDel names =>
                cut f (set_childs h p (fold_left (ddel String.eqb) names (nchilds (hget h p)))) p break_on
            end
        end
    end.

  (** tree.py 75-93: __setitem__.  Raising happens before any mutation, so [Err] means "heap unchanged". *)
  Definition tree_set (h : heap) (self : nat) (k : pykey) (v : option V) : Res heap :=
    match k, v with
    | KOther, _ => Err EKeyError
    | _, None => Err EValueError
    | _, Some x =>
        if value_checker x then
          match get_converted_keys k with
          | Err e => Err e
          | Ok keys => let (h', n) := search_or_create_node h self keys in Ok (set_val h' n (Some x))
          end
        else Err EValueError
    end.

  (** tree.py 193-206: get. *)
  Definition tree_get (h : heap) (self : nat) (k : pykey) : Res (option V) :=
    match k with
    | KStr s => if String.eqb s sep then Ok (nval (hget h self))
                else match get_converted_keys k with
                     | Err e => Err e
                     | Ok keys => match search_node h self keys with
                                  | None => Ok None
                                  | Some n => Ok (nval (hget h n))
                                  end
                     end
    | KOther => Err EKeyError
    end.

  (** tree.py 62-73: __getitem__. *)
  Definition tree_getitem (h : heap) (self : nat) (k : pykey) : Res V :=
    match tree_get h self k with
    | Err e => Err e
    | Ok None => Err EKeyError
    | Ok (Some v) => Ok v
    end.

  (** tree.py 120-129: __contains__. *)
  Definition tree_contains (h : heap) (self : nat) (k : pykey) : Res bool :=
    match get_converted_keys k with
    | Err e => Err e
    | Ok keys => match search_node h self keys with None => Ok false | Some _ => Ok true end
    end.

  (** tree.py 131-150: __delitem__. *)
  Definition tree_del (h : heap) (self : nat) (k : pykey) : Res heap :=
    match k with
    | KOther => Err EKeyError
    | KStr _ =>
        match get_converted_keys k with
        | Err e => Err e
        | Ok keys =>
            match search_node h self keys with
            | None => Err EKeyError
            | Some n => match nval (hget h n) with
                        | None => Err EKeyError
                        | Some _ => let h1 := set_val h n None in cut (S (length h1)) h1 n self
                        end
            end
        end
    end.

  (** tree.py 338-349: the loop of put_node on the list of names. *)
  Fixpoint put_walk (h : heap) (n : nat) (keys : list string) (new_node : nat) : heap :=
    match keys with
    | [] => h
    | [k] => set_childs h n (dset String.eqb (nchilds (hget h n)) k new_node)
    | k :: ks => match dget String.eqb (nchilds (hget h n)) k with
                 | Some c => put_walk h c ks new_node
                 | None => let (h', c) := create_child h n k in put_walk h' c ks new_node
                 end
    end.

  (** tree.py 319-349: put_node; returns the new root of the tree. *)
  Definition put_node (h : heap) (self : nat) (k : pykey) (new_node : nat) : heap * Res nat :=
    match k with
    | KStr s =>
        if String.eqb s sep then (h, Ok new_node)
        else match get_converted_keys k with
             | Err e => (h, Err e)
             | Ok keys => (put_walk h self keys new_node, Ok self)
             end
    | KOther => (h, Err EKeyError)
    end.

  (** projector.py 26-30: the loop of TreeProjector.on with not_to_root=True.  The heap changes made
      before a raise stay. *)
  Fixpoint project_loop (h : heap) (src : nat) (new_tree : nat) (paths : list pykey) : heap * Res nat :=
    match paths with
    | [] => (h, Ok new_tree)
    | p :: ps =>
        if match p with KStr s => String.eqb s sep | KOther => false end then (h, Err EValueError)
        else match get_converted_keys p with
             | Err e => (h, Err e)
             | Ok keys =>
                 let (h1, n) := search_or_create_node h src keys in
                 match put_node h1 new_tree p n with
                 | (h2, Err e) => (h2, Err e)
                 | (h2, Ok t) => project_loop h2 src t ps
                 end
             end
    end.

  (** projector.py 17-32: TreeProjector(src).on(paths). *)
  Definition project (h : heap) (src : nat) (paths : list pykey) : heap * Res nat :=
    let (h1, t) := new_root h in project_loop h1 src t paths.
End Tree.
Arguments node : clear implicits.
Arguments heap : clear implicits.
