(** Model of the handler registry: polog/config.py 72-144 over polog/core/stores/handlers.py 5-7.

    A handler object is a number (its identity, Python's id()); None is Python's None. *)
From Verif Require Import Base Tree_Model.

Section Registry.
  (** str.isidentifier, the default key_checker (tree.py 49): arbitrary here. *)
  Variable isident : string -> bool.
  (** SignatureMatcher.is_handler (handlers.py 6): False and raising ValueError both end in ValueError at
      tree.py 88-90, so they are not distinguished (simplified). *)
  Variable is_handler : nat -> bool.
  (** The names produced by the generator of config.py 15 with ' ' replaced by '_' (config.py 96), as an
      arbitrary stream.  Simplified: the generator never ends (see C45 for the real one). *)
  Variable pony : nat -> string.

  Record rstate : Type := mkReg { rheap : heap nat; rpony : nat }.
  (** handlers.py 5-7 and config.py 15. *)
  Definition rinit : rstate := mkReg (fst (new_root [])) 0.

  (** config.py 102-108: set_handler. *)
  Definition set_handler (s : rstate) (name : pykey) (h : option nat) : rstate * Res unit :=
    match tree_contains isident (rheap s) 0 name with
    | Err e => (s, Err e)
    | Ok true => (s, Err ENameError)
    | Ok false => match tree_set isident is_handler (rheap s) 0 name h with
                  | Ok hp => (mkReg hp (rpony s), Ok tt)
                  | Err e => (s, Err e)
                  end
    end.

  Definition obj_eqb (a b : option nat) : bool :=
    match a, b with None, None => true | Some x, Some y => Nat.eqb x y | _, _ => false end.

  (** Values of the top-level nodes: node.value for node in global_handlers.childs.values(). *)
  Definition top_values (s : rstate) : list (option nat) :=
    map (fun kc => nval (hget (rheap s) (snd kc))) (nchilds (hget (rheap s) 0)).

  Inductive harg : Type :=
  | AObj (h : option nat)                              (* a positional handler *)
  | ADict (items : list (pykey * option nat)).         (* a positional dictionary *)

  (** config.py 87-91: the loop over one dictionary; 98-99: the loop over **kwargs. *)
  Fixpoint set_handlers (s : rstate) (items : list (pykey * option nat)) : rstate * Res unit :=
    match items with
    | [] => (s, Ok tt)
    | (name, h) :: r =>
        match name with
        | KOther => (s, Err EKeyError)
        | KStr _ => match set_handler s name h with
                    | (s', Ok _) => set_handlers s' r
                    | (s', Err e) => (s', Err e)
                    end
        end
    end.

  (** config.py 92-97: one positional handler.  The name is drawn before it is stored. *)
  Definition add_one (s : rstate) (h : option nat) : rstate * Res unit :=
    if existsb (obj_eqb h) (top_values s) then (s, Err EValueError)
    else set_handler (mkReg (rheap s) (S (rpony s))) (KStr (pony (rpony s))) h.

  (** config.py 86-97. *)
  Fixpoint add_args (s : rstate) (args : list harg) : rstate * Res unit :=
    match args with
    | [] => (s, Ok tt)
    | a :: r =>
        match (match a with AObj h => add_one s h | ADict items => set_handlers s items end) with
        | (s', Ok _) => add_args s' r
        | (s', Err e) => (s', Err e)
        end
    end.

  (** config.py 72-99: add_handlers( *args, **kwargs). *)
  Definition add_handlers (s : rstate) (args : list harg) (kwargs : list (string * option nat)) : rstate * Res unit :=
    match add_args s args with
    | (s', Ok _) => set_handlers s' (map (fun nv => (KStr (fst nv), snd nv)) kwargs)
    | (s', Err e) => (s', Err e)
    end.

  (** config.py 111-124: get_handlers( *names); None: the global tree itself is returned. *)
  Definition get_handlers (s : rstate) (names : list pykey) : rstate * Res (option nat) :=
    match names with
    | [] => (s, Ok None)
    | _ => match project isident (rheap s) 0 names with
           | (hp, Ok r) => (mkReg hp (rpony s), Ok (Some r))
           | (hp, Err e) => (mkReg hp (rpony s), Err e)
           end
    end.

  (** What is passed to delete_handlers: a str or another object. *)
  Inductive darg : Type := DName (n : string) | DObj (h : option nat).

  (** config.py 140: {id(node.value): node.name ...}, the later child wins. *)
  Fixpoint last_name (s : rstate) (h : option nat) (cs : list (string * nat)) : option (option string) :=
    match cs with
    | [] => None
    | (_, c) :: r => match last_name s h r with
                     | Some n => Some n
                     | None => if obj_eqb h (nval (hget (rheap s) c)) then Some (nname (hget (rheap s) c)) else None
                     end
    end.

  Definition del_key (s : rstate) (k : pykey) : rstate * Res unit :=
    match tree_del isident (rheap s) 0 k with
    | Ok hp => (mkReg hp (rpony s), Ok tt)
    | Err e => (s, Err e)
    end.

  (** config.py 135-144: one argument of delete_handlers. *)
  Definition delete_one (s : rstate) (a : darg) : rstate * Res unit :=
    match a with
    | DName n => del_key s (KStr n)
    | DObj h => match last_name s h (nchilds (hget (rheap s) 0)) with
                | None => (s, Err EValueError)
                | Some (Some n) => del_key s (KStr n)
                | Some None => del_key s KOther
                end
    end.

  (** config.py 127-144: delete_handlers( *names). *)
  Fixpoint delete_handlers (s : rstate) (args : list darg) : rstate * Res unit :=
    match args with
    | [] => (s, Ok tt)
    | a :: r => match delete_one s a with
                | (s', Ok _) => delete_handlers s' r
                | (s', Err e) => (s', Err e)
                end
    end.

  (** The calls a program makes; an exception ends a call, the program goes on. *)
  Inductive rop : Type :=
  | RAdd (args : list harg) (kwargs : list (string * option nat))
  | RDel (args : list darg)
  | RGet (names : list pykey).

  Definition reg_step (s : rstate) (o : rop) : rstate :=
    match o with
    | RAdd a k => fst (add_handlers s a k)
    | RDel a => fst (delete_handlers s a)
    | RGet n => fst (get_handlers s n)
    end.

  (** config.get_handlers()[...]: what is registered under a name. *)
  Definition handler_at (s : rstate) (k : pykey) : Res (option nat) := tree_get isident (rheap s) 0 k.
End Registry.
