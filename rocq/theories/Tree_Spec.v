(** What a user of a handler tree relies on, said without nodes: a finite map from
    dotted paths to values. *)
From Verif Require Import Base Tree_Model.

(** A path is a list of names; "." is the path [] of the tree itself. *)
Definition path := list string.

Fixpoint path_eqb (a b : path) : bool :=
  match a, b with
  | [], [] => true
  | x :: a', y :: b' => String.eqb x y && path_eqb a' b'
  | _, _ => false
  end.

Fixpoint no_dot (s : string) : bool :=
  match s with EmptyString => true | String a r => negb (Ascii.eqb a dot) && no_dot r end.

(** "a.b.c" for ["a";"b";"c"]. *)
Fixpoint join_dots (p : path) : string :=
  match p with
  | [] => ""
  | [x] => x
  | x :: r => x ++ String dot (join_dots r)
  end.

Section Spec.
  Context {V : Type}.
  Variable key_checker : string -> bool.
  Variable value_checker : V -> bool.

  (** The text of a key denotes a path: "." denotes [], any other text the list of its
      dot-free pieces, all of which must be acceptable names. *)
  Definition denotes (k : pykey) (p : path) : Prop :=
    match k with
    | KOther => False
    | KStr s => (s = "."%string /\ p = []) \/
                (s <> "."%string /\ p <> [] /\ s = join_dots p /\
                 forallb no_dot p = true /\ forallb key_checker p = true)
    end.

  Definition parse (k : pykey) : option path :=
    match k with
    | KOther => None
    | KStr s => if String.eqb s sep then Some []
                else let keys := split_on dot s in
                     if forallb key_checker keys then Some keys else None
    end.

  Definition amap := list (path * V).

  Inductive top : Type :=
  | OSet (k : pykey) (v : option V)      (* tree[k] = v *)
  | ODel (k : pykey)                     (* del tree[k] *)
  | OGet (k : pykey)                     (* tree.get(k) *)
  | OItem (k : pykey)                    (* tree[k] *)
  | OLen                                 (* len(tree) *)
  | OProject (ks : list pykey).          (* a projection of the tree is taken on ks *)

  Inductive tout : Type :=
  | RUnit | RVal (v : option V) | RNat (n : nat) | RErr (e : exn).

  Definition spec_project (ks : list pykey) : tout :=
    (fix go l := match l with
                 | [] => RUnit
                 | k :: r => match parse k with
                             | None => RErr EKeyError
                             | Some [] => RErr EValueError
                             | Some _ => go r
                             end
                 end) ks.

  Definition map_step (m : amap) (o : top) : amap * tout :=
    match o with
    | OSet KOther _ => (m, RErr EKeyError)
    | OSet _ None => (m, RErr EValueError)
    | OSet k (Some v) =>
        if value_checker v then
          match parse k with
          | None => (m, RErr EKeyError)
          | Some p => (dset path_eqb m p v, RUnit)
          end
        else (m, RErr EValueError)
    | ODel k =>
        match parse k with
        | None => (m, RErr EKeyError)
        | Some p => match dget path_eqb m p with
                    | None => (m, RErr EKeyError)
                    | Some _ => (ddel path_eqb m p, RUnit)
                    end
        end
    | OGet k => match parse k with
                | None => (m, RErr EKeyError)
                | Some p => (m, RVal (dget path_eqb m p))
                end
    | OItem k => match parse k with
                 | None => (m, RErr EKeyError)
                 | Some p => match dget path_eqb m p with
                             | None => (m, RErr EKeyError)
                             | Some v => (m, RVal (Some v))
                             end
                 end
    | OLen => (m, RNat (length m))
    | OProject ks => (m, spec_project ks)
    end.

  (** The same operations on the modelled tree, whose root is node 0 of the heap. *)
  Definition tree_step (h : heap V) (o : top) : heap V * tout :=
    match o with
    | OSet k v => match tree_set key_checker value_checker h 0 k v with
                  | Ok h' => (h', RUnit) | Err e => (h, RErr e) end
    | ODel k => match tree_del key_checker h 0 k with
                | Ok h' => (h', RUnit) | Err e => (h, RErr e) end
    | OGet k => match tree_get key_checker h 0 k with
                | Ok v => (h, RVal v) | Err e => (h, RErr e) end
    | OItem k => match tree_getitem key_checker h 0 k with
                 | Ok v => (h, RVal (Some v)) | Err e => (h, RErr e) end
    | OLen => match tree_len h 0 with Ok n => (h, RNat n) | Err e => (h, RErr e) end
    | OProject ks => match project key_checker h 0 ks with
                     | (h', Ok _) => (h', RUnit)
                     | (h', Err e) => (h', RErr e)
                     end
    end.

  Definition tree_empty : heap V := fst (new_root []).
  Definition map_empty : amap := [].

  (** Histories without projections. *)
  Definition no_projection (o : top) : bool := match o with OProject _ => false | _ => true end.

  (** Some value is stored at [p] or below. *)
  Definition leads_to_value (m : amap) (p : path) : Prop :=
    exists q, dget path_eqb m (p ++ q) <> None.
  (** Every deletion of the history [ops], started from [m], leaves something stored at [p] or below. *)
  Fixpoint kept (m : amap) (p : path) (ops : list top) : Prop :=
    match ops with
    | [] => True
    | o :: r => let m' := fst (map_step m o) in
                (match o with ODel _ => leads_to_value m' p | _ => True end) /\ kept m' p r
    end.
End Spec.
Arguments top : clear implicits.
Arguments tout : clear implicits.
Arguments amap : clear implicits.
