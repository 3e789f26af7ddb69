(** The registry of decorated functions and the three decorators that use it.

    polog/core/stores/registering_functions.py, polog/unlog.py 59-77, polog/loggers/auto/function_logger.py 56-113 (the
    decorating part), polog/loggers/auto/class_logger.py.

    Function objects are numbers, in the order of their creation; what an object does when called is recorded with it.
    Simplified: the weak references of the registry are strong (an entry of all_decorated_functions or
    unlogged_functions disappears only with its key, because a wrapper keeps its original alive; proved in Gc_Props); functions are compared
    by identity (bound methods, which compare by value, are left out); [P] stands for all the parameters of a logging
    decorator. *)
From Verif Require Import Base.

Section Deco.
  Variable P : Type.

  Inductive obj : Type :=
  | OFun                                   (* a function of the user *)
  | OLog (p : P) (t : nat)                 (* function_logger.py 62-105: wrapper around t *)
  | OUnlog (full : option bool) (t : nat). (* unlog.py 93-110: wrapper around t *)

  (** registering_functions.py 11-17. *)
  Record reg : Type := mkReg {
    objs : list obj;                       (* all function objects; not part of the registry *)
    dec : list (nat * nat);                (* all_decorated_functions *)
    unl : list (nat * nat);                (* unlogged_functions *)
    forb : list nat;                       (* forbidden_to_decorate *)
    meth : list nat }.                     (* decorated_methods *)

  Definition mem (x : nat) (l : list nat) : bool := existsb (Nat.eqb x) l.
  Definition get (d : list (nat * nat)) (k : nat) : option nat := dget Nat.eqb d k.
  Definition put (d : list (nat * nat)) (k v : nat) : list (nat * nat) := dset Nat.eqb d k v.
  Definition pop (d : list (nat * nat)) (k : nat) : list (nat * nat) := ddel Nat.eqb d k.

  (** 108-121. *)
  Definition get_original (g : reg) (f : nat) : nat :=
    match get (dec g) f with
    | Some o => o
    | None => match get (unl g) f with Some o => o | None => f end
    end.
  (** 82-88. *)
  Definition is_forbidden (g : reg) (f : nat) : bool := mem (get_original g f) (forb g).
  (** 90-98. *)
  Definition is_decorator (g : reg) (f : nat) : bool := negb (Nat.eqb f (get_original g f)).
  (** 100-106. *)
  Definition is_method (g : reg) (f : nat) : bool := mem (get_original g f) (meth g).
  (** 19-25. *)
  Definition add (g : reg) (w o : nat) (m : bool) : reg :=
    mkReg (objs g) (put (dec g) w o) (unl g) (forb g) (if m then o :: meth g else meth g).
  (** 27-33. *)
  Definition add_unlogged (g : reg) (w o : nat) : reg := mkReg (objs g) (dec g) (put (unl g) w o) (forb g) (meth g).
  (** 35-43. *)
  Definition remove (g : reg) (f : nat) : reg :=
    if is_decorator g f then
      mkReg (objs g) (pop (dec g) f) (unl g) (forb g) (filter (fun x => negb (Nat.eqb x (get_original g f))) (meth g))
    else g.
  (** 45-52. *)
  Definition forbid (g : reg) (f : nat) : reg :=
    let o := get_original g f in
    if is_forbidden g o then g else mkReg (objs g) (dec g) (unl g) (o :: forb g) (meth g).

  (** A new function object. *)
  Definition new (g : reg) (o : obj) : reg * nat := (mkReg (objs g ++ [o]) (dec g) (unl g) (forb g) (meth g), length (objs g)).

  (** unlog.py 59-77: unlog_function. *)
  Definition unlog (g : reg) (f : nat) (full : option bool) : reg * nat :=
    let '(g1, result) :=
      if is_decorator g f
      then let o := get_original g f in (forbid (remove g f) o, o)
      else (forbid g f, f) in
    let '(g2, w) := new g1 (OUnlog full result) in
    (add_unlogged g2 w result, w).

  (** registering_functions.py 54-80; [w]: the wrapper that was just made. *)
  Definition choose (g : reg) (func before w : nat) (m : bool) : reg * nat :=
    if is_forbidden g func then unlog g func None
    else if is_decorator g before then
      if is_method g before then (add (remove g before) w func m, w)
      else if m then (g, before)
      else (add (remove g before) w func m, w)
    else (add (remove g func) w func m, w).

  (** function_logger.py 56-113: error_logger; [m]: is_method. *)
  Definition log (g : reg) (f : nat) (p : P) (m : bool) : reg * nat :=
    let func := get_original g f in
    let '(g1, w) := new g (OLog p func) in
    choose g1 func f w m.

  (** What is called when object f is called: the wrappers, outermost first.  The target of a wrapper is older than the
      wrapper, so f steps are enough. *)
  Inductive layer : Type := LLog (p : P) | LUnlog (full : option bool).
  Fixpoint unwrap (n : nat) (l : list obj) (f : nat) : list layer :=
    match n with
    | 0 => []
    | S n' => match nth_error l f with
              | Some (OLog p t) => LLog p :: unwrap n' l t
              | Some (OUnlog full t) => LUnlog full :: unwrap n' l t
              | _ => []
              end
    end.
  Definition layers (g : reg) (f : nat) : list layer := unwrap (S f) (objs g) f.
  Fixpoint base_of (n : nat) (l : list obj) (f : nat) : nat :=
    match n with
    | 0 => f
    | S n' => match nth_error l f with
              | Some (OLog _ t) | Some (OUnlog _ t) => base_of n' l t
              | _ => f
              end
    end.
  (** The user's function behind object f. *)
  Definition root (g : reg) (f : nat) : nat := base_of (S f) (objs g) f.

  (** The ways in which a program can act on the registry: define a function; apply @log; be a method of a class under
      @log; apply @unlog; be a method of a class under @log(methods=...) and not named there (class_logger.py 29-36). *)
  Inductive deco : Type := DLog (p : P) | DMeth (p : P) | DUnlog (full : option bool) | DOrig.
  Definition apply (g : reg) (f : nat) (d : deco) : reg * nat :=
    match d with
    | DLog p => log g f p false
    | DMeth p => log g f p true
    | DUnlog full => unlog g f full
    | DOrig => (g, get_original g f)
    end.
  Inductive op : Type := Def | On (f : nat) (d : deco).
  Definition step (g : reg) (o : op) : reg :=
    match o with
    | Def => fst (new g OFun)
    | On f d => if Nat.ltb f (length (objs g)) then fst (apply g f d) else g
    end.
  Definition run (os : list op) (g : reg) : reg := fold_left step os g.
  Definition empty : reg := mkReg [] [] [] [] [].
End Deco.
Arguments OFun {P}.
Arguments OLog {P}.
Arguments OUnlog {P}.
Arguments mkReg {P}.
Arguments objs {P}.
Arguments dec {P}.
Arguments unl {P}.
Arguments forb {P}.
Arguments meth {P}.
Arguments get_original {P}.
Arguments is_forbidden {P}.
Arguments is_decorator {P}.
Arguments is_method {P}.
Arguments add {P}.
Arguments add_unlogged {P}.
Arguments remove {P}.
Arguments forbid {P}.
Arguments new {P}.
Arguments unlog {P}.
Arguments choose {P}.
Arguments log {P}.
Arguments LLog {P}.
Arguments LUnlog {P}.
Arguments unwrap {P}.
Arguments layers {P}.
Arguments base_of {P}.
Arguments root {P}.
Arguments DLog {P}.
Arguments DMeth {P}.
Arguments DUnlog {P}.
Arguments DOrig {P}.
Arguments apply {P}.
Arguments Def {P}.
Arguments On {P}.
Arguments step {P}.
Arguments run {P}.
Arguments empty {P}.
