(** Decorators of classes over the kinds of attributes: functions, static methods, class methods, callable objects (a
    nested class, a class kept as an attribute, functools.partial, ...) and everything else, with inheritance.

    polog/loggers/auto/class_logger.py 13-72, polog/unlog.py 30-37 and 59-77, polog/loggers/auto/function_logger.py 56-113
    (the decorating part), polog/core/stores/registering_functions.py.

    DecoClass_Model has functions and data only; here the descriptor protocol of Python is added: what getattr gives for an
    attribute of a class or of an instance, and what the function of the user receives when the result is called.
    Simplified: keyword arguments are left out (all wrappers pass them on as they are); dir() gives the names in another
    order; an attribute that cannot be called cannot be decorated either (ETypeError: no weak reference to it); the weak
    references of the registry are strong; all classes exist from the start (a decorator writes only into its own class);
    instances have no attributes of their own; the names given in [methods] are strings. *)
From Verif Require Import Base DecoClass_Model.
Local Open Scope string_scope.
Local Open Scope list_scope.

(** The arguments of a call: instances, classes and other values. *)
Inductive val : Type := VInst (i : nat) | VCls (c : nat) | VOth (n : nat).
Definition val_eqb (a b : val) : bool :=
  match a, b with
  | VInst i, VInst j | VCls i, VCls j | VOth i, VOth j => Nat.eqb i j
  | _, _ => false
  end.

Section Kinds.
  Context {P : Type}.

  (** Things that can be called.  [i] tells the objects apart. *)
  Inductive fn : Type :=
  | User (i : nat)                              (* a function of the user *)
  | Other (i : nat)                             (* a callable object that is not a function, e.g. a class *)
  | Log (i : nat) (p : P) (t : fn)              (* function_logger.py 62-105: wrapper around t *)
  | Unlog (i : nat) (full : option bool) (t : fn) (* unlog.py 93-110: wrapper around t *)
  | Bound (t : fn) (v : val).                   (* a bound method of Python *)

  (** Equality of Python: identity for all but bound methods, which are compared by the function and the object they are
      bound to.  (The comparison of the targets of two wrappers is idle: a number belongs to one object.) *)
  Fixpoint fn_eqb (a b : fn) : bool :=
    match a, b with
    | User i, User j | Other i, Other j => Nat.eqb i j
    | Log i _ t, Log j _ u => Nat.eqb i j && fn_eqb t u
    | Unlog i _ t, Unlog j _ u => Nat.eqb i j && fn_eqb t u
    | Bound t v, Bound u w => fn_eqb t u && val_eqb v w
    | _, _ => false
    end.

  (** Functions are bound when taken from an instance; the other callables are not. *)
  Definition is_function (x : fn) : bool :=
    match x with User _ | Log _ _ _ | Unlog _ _ _ => true | Other _ | Bound _ _ => false end.

  (** What finally runs when x is called with [args], and the arguments it receives.  function_logger.py 74, 98: a wrapper
      calls its target with the same arguments; unlog.py 97, 105. *)
  Fixpoint calls (x : fn) (args : list val) : fn * list val :=
    match x with
    | User _ | Other _ => (x, args)
    | Log _ _ t | Unlog _ _ t => calls t args
    | Bound t v => calls t (v :: args)
    end.
  (** The wrappers passed on the way, outermost first. *)
  Inductive mark : Type := ByLog (p : P) | ByUnlog (full : option bool).
  Fixpoint marks (x : fn) : list mark :=
    match x with
    | User _ | Other _ => []
    | Log _ p t => ByLog p :: marks t
    | Unlog _ b t => ByUnlog b :: marks t
    | Bound t _ => marks t
    end.

  (** registering_functions.py 11-17; [fresh]: the number of the next wrapper. *)
  Record registry : Type := mkRegistry {
    fresh : nat;
    decorated : list (fn * fn);                 (* all_decorated_functions *)
    unlogged : list (fn * fn);                  (* unlogged_functions *)
    forbidden : list fn;                        (* forbidden_to_decorate *)
    methods_of : list fn }.                     (* decorated_methods *)

  Definition among (x : fn) (l : list fn) : bool := existsb (fn_eqb x) l.

  (** 108-121. *)
  Definition original (g : registry) (f : fn) : fn :=
    match dget fn_eqb (decorated g) f with
    | Some o => o
    | None => match dget fn_eqb (unlogged g) f with Some o => o | None => f end
    end.
  (** 82-88. *)
  Definition forbidden_fn (g : registry) (f : fn) : bool := among (original g f) (forbidden g).
  (** 90-98. *)
  Definition decorator_fn (g : registry) (f : fn) : bool := negb (fn_eqb f (original g f)).
  (** 100-106. *)
  Definition method_fn (g : registry) (f : fn) : bool := among (original g f) (methods_of g).
  (** 19-25. *)
  Definition add_fn (g : registry) (w o : fn) (m : bool) : registry :=
    mkRegistry (fresh g) (dset fn_eqb (decorated g) w o) (unlogged g) (forbidden g) (if m then o :: methods_of g else methods_of g).
  (** 35-43. *)
  Definition remove_fn (g : registry) (f : fn) : registry :=
    if decorator_fn g f then
      mkRegistry (fresh g) (ddel fn_eqb (decorated g) f) (unlogged g) (forbidden g)
        (filter (fun x => negb (fn_eqb x (original g f))) (methods_of g))
    else g.
  (** 45-52. *)
  Definition forbid_fn (g : registry) (f : fn) : registry :=
    let o := original g f in
    if forbidden_fn g o then g else mkRegistry (fresh g) (decorated g) (unlogged g) (o :: forbidden g) (methods_of g).
  Definition bump (g : registry) : registry :=
    mkRegistry (S (fresh g)) (decorated g) (unlogged g) (forbidden g) (methods_of g).

  (** unlog.py 59-77, registering_functions.py 27-33. *)
  Definition unlog_fn (g : registry) (f : fn) (full : option bool) : registry * fn :=
    let '(g1, result) :=
      if decorator_fn g f
      then let o := original g f in (forbid_fn (remove_fn g f) o, o)
      else (forbid_fn g f, f) in
    let w := Unlog (fresh g1) full result in
    let g2 := bump g1 in
    (mkRegistry (fresh g2) (decorated g2) (dset fn_eqb (unlogged g2) w result) (forbidden g2) (methods_of g2), w).

  (** registering_functions.py 54-80. *)
  Definition choose_fn (g : registry) (func before w : fn) (m : bool) : registry * fn :=
    if forbidden_fn g func then unlog_fn g func None
    else if decorator_fn g before then
      if method_fn g before then (add_fn (remove_fn g before) w func m, w)
      else if m then (g, before)
      else (add_fn (remove_fn g before) w func m, w)
    else (add_fn (remove_fn g func) w func m, w).

  (** function_logger.py 56-113. *)
  Definition log_fn (g : registry) (f : fn) (p : P) (m : bool) : registry * fn :=
    let func := original g f in
    choose_fn (bump g) func f (Log (fresh g) p func) m.

  Inductive how : Type := HLog (p : P) | HMeth (p : P) | HUnlog (full : option bool) | HOrig.
  Definition deco_fn (g : registry) (f : fn) (d : how) : registry * fn :=
    match d with
    | HLog p => log_fn g f p false
    | HMeth p => log_fn g f p true
    | HUnlog full => unlog_fn g f full
    | HOrig => (g, original g f)               (* class_logger.py 35 *)
    end.

  (** Classes: each has its own dictionary. *)
  Inductive entry : Type :=
  | EObj (x : fn)                               (* a function, or another callable *)
  | EStatic (x : fn)                            (* staticmethod(x) *)
  | EClassM (x : fn)                            (* classmethod(x) *)
  | EData.                                      (* anything that cannot be called: data, a property *)
  Record world : Type := mkWorld { reg_of : registry; own : nat -> list (string * entry) }.

  (** The method resolution order of every class, itself included. *)
  Variable mro : nat -> list nat.

  Fixpoint find (w : nat -> list (string * entry)) (cs : list nat) (n : string) : option entry :=
    match cs with
    | [] => None
    | c :: r => match dget String.eqb (w c) n with Some e => Some e | None => find w r n end
    end.

  (** What getattr gives: on the class c itself, and on an instance i of it.  [None]: something that cannot be called. *)
  Definition from_class (c : nat) (e : entry) : option fn :=
    match e with
    | EObj x | EStatic x => Some x
    | EClassM x => Some (Bound x (VCls c))
    | EData => None
    end.
  Definition from_instance (c i : nat) (e : entry) : option fn :=
    match e with
    | EObj x => Some (if is_function x then Bound x (VInst i) else x)
    | EStatic x => Some x
    | EClassM x => Some (Bound x (VCls c))
    | EData => None
    end.

  Definition in_class (w : world) (c : nat) (n : string) : Res (option fn) :=
    match find (own w) (mro c) n with None => Err EAttributeError | Some e => Ok (from_class c e) end.

  Definition set_own (w : world) (c : nat) (n : string) (x : fn) : world :=
    mkWorld (reg_of w) (fun d => if Nat.eqb d c then dset String.eqb (own w c) n (EObj x) else own w d).

  (** dir(Class) *)
  Definition names (w : world) (c : nat) : list string :=
    nodup string_dec (flat_map (fun d => map fst (own w d)) (mro c)).

  (** class_logger.py 22-28, 33-36; unlog.py 32-36; what was done before an exception stays. *)
  Fixpoint each_name (w : world) (c : nat) (ns : list string) (d : how) : world * option exn :=
    match ns with
    | [] => (w, None)
    | n :: r => match in_class w c n with
                | Err e => (w, Some e)
                | Ok None => (w, Some ETypeError)
                | Ok (Some x) => let '(g, y) := deco_fn (reg_of w) x d in
                                 each_name (set_own (mkWorld g (own w)) c n y) c r d
                end
    end.

  Definition can_call (w : world) (c : nat) (n : string) : bool :=
    match in_class w c n with Ok (Some _) => true | _ => false end.
  (** class_logger.py 69. *)
  Definition loggable (w : world) (c : nat) : list string :=
    filter (fun n => can_call w c n && (negb (starts_with "__" n) && negb (ends_with "__" n))) (names w c).

  (** class_logger.py 19-37, 44-56. *)
  Definition log_class (w : world) (c : nat) (methods : list string) (p : P) : world * option exn :=
    let all := match methods with [] => loggable w c | _ => methods end in
    match each_name w c all (HMeth p) with
    | (w1, Some e) => (w1, Some e)
    | (w1, None) =>
        let originals := match methods with
                         | [] => []
                         | _ => filter (fun n => negb (named n methods)) (loggable w1 c)
                         end in
        each_name w1 c originals HOrig
    end.
  (** unlog.py 31-37. *)
  Definition unlog_cls (w : world) (c : nat) (full : option bool) : world * option exn :=
    each_name w c (filter (fun n => negb (starts_with "__" n) && can_call w c n) (names w c)) (HUnlog full).

  (** What may happen: a decorator in the body of a class, under staticmethod or classmethod if there is one; a decorator
      of a class. *)
  Inductive kop : Type :=
  | KBody (c : nat) (n : string) (d : how)
  | KLog (c : nat) (methods : list string) (p : P)
  | KUnlog (c : nat) (full : option bool).

  Definition inside (g : registry) (e : entry) (d : how) : registry * entry :=
    match e with
    | EObj x => let '(g', y) := deco_fn g x d in (g', EObj y)
    | EStatic x => let '(g', y) := deco_fn g x d in (g', EStatic y)
    | EClassM x => let '(g', y) := deco_fn g x d in (g', EClassM y)
    | EData => (g, EData)
    end.
  Definition kstep (w : world) (o : kop) : world :=
    match o with
    | KBody c n d =>
        match dget String.eqb (own w c) n with
        | None => w
        | Some e => let '(g, e') := inside (reg_of w) e d in
                    mkWorld g (fun k => if Nat.eqb k c then dset String.eqb (own w c) n e' else own w k)
        end
    | KLog c ms p => fst (log_class w c ms p)
    | KUnlog c b => fst (unlog_cls w c b)
    end.
  Definition krun (w : world) (os : list kop) : world := fold_left kstep os w.

  (** A call: through the class c, or through an instance i of the class c. *)
  Inductive via : Type := OnClass (c : nat) | OnInst (c i : nat).
  Definition class_of (a : via) : nat := match a with OnClass c | OnInst c _ => c end.
  Definition taken (w : world) (a : via) (n : string) : Res (option fn) :=
    match find (own w) (mro (class_of a)) n with
    | None => Err EAttributeError
    | Some e => Ok (match a with OnClass c => from_class c e | OnInst c i => from_instance c i e end)
    end.
  Definition call (w : world) (a : via) (n : string) (args : list val) : Res (fn * list val) :=
    match taken w a n with
    | Err e => Err e
    | Ok None => Err ETypeError
    | Ok (Some x) => Ok (calls x args)
    end.
End Kinds.
Arguments fn : clear implicits.
Arguments registry : clear implicits.
Arguments entry : clear implicits.
Arguments world : clear implicits.
Arguments how : clear implicits.
Arguments kop : clear implicits.
Arguments mark : clear implicits.

(** The text of the program: what the bodies of the classes define, before any decorator.  The numbers are names of
    functions and objects of the user. *)
Inductive member : Type := MFun (i : nat) | MStatic (i : nat) | MClass (i : nat) | MOther (i : nat) | MData.
Section Start.
  Context {P : Type}.
  Definition entry_of (m : member) : entry P :=
    match m with
    | MFun i => EObj (User i)
    | MStatic i => EStatic (User i)
    | MClass i => EClassM (User i)
    | MOther i => EObj (Other i)
    | MData => EData
    end.
  Definition kstart (bodies : nat -> list (string * member)) : world P :=
    mkWorld (mkRegistry 0 [] [] [] []) (fun c => map (fun nm => (fst nm, entry_of (snd nm))) (bodies c)).
End Start.
