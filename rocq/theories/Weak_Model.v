(** Model of polog/data_structures/wrappers/weak_linked/dictionary.py on top of weakref.WeakKeyDictionary.
    Objects are numbers, compared and hashed by identity; the dictionary does not keep its keys and values alive, so an object may die at any
    moment ([WDie]). Then all weak references to it are cleared at once and the callbacks of the references that still exist are due; they run in
    any order ([WCb]) and, with several threads, other operations may come in between. The methods hold the lock for their whole effect
    and are single steps. Iteration during changes is not modelled. *)
From Verif Require Import Base.
Local Open Scope list_scope.

(** An argument: an object weak references can be made to, or something else (None, numbers, …). *)
Inductive arg : Type := Obj (o : nat) | NotWeak.
(** A callback that is due: that of a key (WeakKeyDictionary's own) or that of a value (lines 26-28; the key it was made for). *)
Inductive cb : Type := KeyGone (k : nat) | ValGone (k : nat).
Record wstate : Type := mkW {
  alive : nat -> bool;
  data : list (nat * nat);       (* key, the object its stored reference was made to *)
  due : list cb }.
Inductive wop : Type := WSet (k v : arg) | WDel (k : arg) | WPop (k : arg) (defaults : list nat) | WDie (o : nat) | WCb (i : nat).
(** What an operation returns; [Ignored] is an exception of a callback, which Python only prints. *)
Inductive wres : Type := Done | Value (v : nat) | Ignored (e : exn).

Notation nget := (dget Nat.eqb).
Notation nset := (dset Nat.eqb).
Notation ndel := (ddel Nat.eqb).
Definition with_data (s : wstate) (d : list (nat * nat)) : wstate := mkW (alive s) d (due s).

(** dictionary.py 83-90 (get); None for absent and dead. *)
Definition wget (s : wstate) (k : nat) : option nat :=
  match nget (data s) k with
  | None => None
  | Some v => if alive s v then Some v else None
  end.
(** 31-39, 58-62, 70-74, 92-97, 98-105 *)
Definition wgetitem (s : wstate) (k : nat) : Res nat := match wget s k with None => Err EKeyError | Some v => Ok v end.
Definition wcontains (s : wstate) (k : nat) : bool := dmem Nat.eqb (data s) k.
Definition wlen (s : wstate) : nat := length (data s).
Definition wkeys (s : wstate) : list nat := filter (alive s) (map fst (data s)).
Definition wvalues (s : wstate) : list nat := filter (alive s) (map snd (data s)).
(** 107-114: [value()] calls the value; [call] is what calling an object does. *)
Fixpoint witems_of (call : nat -> Res nat) (s : wstate) (ks : list nat) : Res (list (nat * nat)) :=
  match ks with
  | [] => Ok []
  | k :: r => match wget s k with
              | None => witems_of call s r
              | Some v => bindR (call v) (fun x => bindR (witems_of call s r) (fun l => Ok ((k, x) :: l)))
              end
  end.
Definition witems (call : nat -> Res nat) (s : wstate) : Res (list (nat * nat)) := witems_of call s (wkeys s).

(** The references that exist when [o] dies: keys and values that are [o]. *)
Definition callbacks (o : nat) (d : list (nat * nat)) : list cb :=
  flat_map (fun kv => (if Nat.eqb (fst kv) o then [KeyGone o] else []) ++ (if Nat.eqb (snd kv) o then [ValGone (fst kv)] else [])) d.
Fixpoint take_nth {B} (l : list B) (i : nat) : option (B * list B) :=
  match l, i with
  | [], _ => None
  | x :: r, 0 => Some (x, r)
  | x :: r, S j => match take_nth r j with None => None | Some (y, q) => Some (y, x :: q) end
  end.

(** One operation; None: it cannot happen (a program cannot pass or lose an object that is dead already; no such callback). *)
Definition wstep (s : wstate) (o : wop) : option (wstate * Res wres) :=
  match o with
  | WSet (Obj k) (Obj v) =>                                                          (* 15-29 *)
      if alive s k && alive s v then Some (with_data s (nset (data s) k v), Ok Done) else None
  | WSet _ _ => Some (s, Err ETypeError)                                              (* 22, weakref.ref *)
  | WDel (Obj k) =>                                                                   (* 41-46 *)
      if alive s k then
        Some (if dmem Nat.eqb (data s) k then (with_data s (ndel (data s) k), Ok Done) else (s, Err EKeyError)) else None
  | WDel NotWeak => Some (s, Err ETypeError)
  | WPop k defaults =>                                                                (* 116-133 *)
      match defaults with
      | _ :: _ :: _ => Some (s, Err ETypeError)
      | _ => match k with
             | NotWeak => Some (s, Err ETypeError)
             | Obj k => if alive s k then
                 Some (match wget s k with
                       | None => (s, match defaults with d :: _ => Ok (Value d) | [] => Err EKeyError end)
                       | Some v => (with_data s (ndel (data s) k), Ok (Value v))
                       end) else None
             end
      end
  | WDie x => if alive s x then Some (mkW (fun y => if Nat.eqb y x then false else alive s y) (data s) (due s ++ callbacks x (data s)), Ok Done) else None
  | WCb i => match take_nth (due s) i with
             | None => None
             | Some (KeyGone k, r) => Some (mkW (alive s) (ndel (data s) k) r, Ok Done)
             | Some (ValGone k, r) =>                                                 (* 26-28 *)
                 if alive s k then
                   if dmem Nat.eqb (data s) k then Some (mkW (alive s) (ndel (data s) k) r, Ok Done)
                   else Some (mkW (alive s) (data s) r, Ok (Ignored EKeyError))
                 else Some (mkW (alive s) (data s) r, Ok Done)                        (* del self[None]: TypeError, suppressed *)
             end
  end.
Fixpoint wrun (s : wstate) (h : list wop) : option wstate :=
  match h with
  | [] => Some s
  | o :: r => match wstep s o with None => None | Some (s', _) => wrun s' r end
  end.
Definition wstart : wstate := mkW (fun _ => true) [] [].
