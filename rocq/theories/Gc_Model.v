(** The registry of decorated functions with its weak references: polog/core/stores/registering_functions.py, polog/unlog.py 59-77,
    polog/loggers/auto/function_logger.py 56-113, polog/data_structures/wrappers/weak_linked/dictionary.py, weakref.WeakSet.
    Deco_Model treats these references as strong; here function objects die.  A wrapper keeps the function it was made for alive (its closure,
    and __wrapped__ set by functools.wraps); it does not keep the object that was decorated (before_change_func is no free variable of it).
    The registry keeps nothing alive.  Objects may die whenever no living object outside the dying ones refers to them (so also in cycles), and the
    entries about the dead are removed at any later moment.
    Simplified: no object dies in the middle of a call of a decorator (those it uses are held by its frames; others do not matter to it);
    objects are compared by identity, and the number of a dead object is not used again (references to the dead are equal to nothing new). *)
From Verif Require Import Base Deco_Model.
Local Open Scope list_scope.

Section Gc.
  Context {P : Type}.
  Record world : Type := mkWorld { rg : reg P; dead : list nat }.
  Definition alive (dd : list nat) (x : nat) : bool := negb (mem x dd).

  (** dictionary.py 83-90. *)
  Definition find (dd : list nat) (d : list (nat * nat)) (k : nat) : option nat :=
    match get d k with None => None | Some v => if alive dd v then Some v else None end.
  (** 116-133 with a default. *)
  Definition wpop (dd : list nat) (d : list (nat * nat)) (k : nat) : list (nat * nat) :=
    match find dd d k with None => d | Some _ => ddel Nat.eqb d k end.

  (** registering_functions.py 108-121. *)
  Definition original (dd : list nat) (g : reg P) (f : nat) : nat :=
    match find dd (dec g) f with
    | Some o => o
    | None => match find dd (unl g) f with Some o => o | None => f end
    end.
  (** 82-88, 90-98, 100-106. *)
  Definition forbidden (dd : list nat) (g : reg P) (f : nat) : bool := mem (original dd g f) (forb g).
  Definition decorated (dd : list nat) (g : reg P) (f : nat) : bool := negb (Nat.eqb f (original dd g f)).
  Definition by_class (dd : list nat) (g : reg P) (f : nat) : bool := mem (original dd g f) (meth g).
  (** 35-43. *)
  Definition wremove (dd : list nat) (g : reg P) (f : nat) : reg P :=
    if decorated dd g f then
      let o := original dd g f in
      mkReg (objs g) (wpop dd (dec g) f) (unl g) (forb g) (if mem o (meth g) then filter (fun x => negb (Nat.eqb x o)) (meth g) else meth g)
    else g.
  (** 45-52. *)
  Definition wforbid (dd : list nat) (g : reg P) (f : nat) : reg P :=
    let o := original dd g f in
    if forbidden dd g o then g else mkReg (objs g) (dec g) (unl g) (o :: forb g) (meth g).
  (** 19-25, 27-33: add and add_unlogged of Deco_Model.  unlog.py 59-77. *)
  Definition wunlog (dd : list nat) (g : reg P) (f : nat) (full : option bool) : reg P * nat :=
    let '(g1, result) :=
      if decorated dd g f
      then let o := original dd g f in (wforbid dd (wremove dd g f) o, o)
      else (wforbid dd g f, f) in
    let '(g2, w) := new g1 (OUnlog full result) in
    (add_unlogged g2 w result, w).
  (** registering_functions.py 54-80. *)
  Definition wchoose (dd : list nat) (g : reg P) (func before w : nat) (m : bool) : reg P * nat :=
    if forbidden dd g func then wunlog dd g func None
    else if decorated dd g before then
      if by_class dd g before then (add (wremove dd g before) w func m, w)
      else if m then (g, before)
      else (add (wremove dd g before) w func m, w)
    else (add (wremove dd g func) w func m, w).
  (** function_logger.py 56-113. *)
  Definition wlog (dd : list nat) (g : reg P) (f : nat) (p : P) (m : bool) : reg P * nat :=
    let func := original dd g f in
    let '(g1, w) := new g (OLog p func) in
    wchoose dd g1 func f w m.
  Definition wapply (dd : list nat) (g : reg P) (f : nat) (d : deco P) : reg P * nat :=
    match d with
    | DLog p => wlog dd g f p false
    | DMeth p => wlog dd g f p true
    | DUnlog full => wunlog dd g f full
    | DOrig => (g, original dd g f)
    end.

  (** The function object that object f keeps alive. *)
  Definition target (l : list (obj P)) (f : nat) : option nat :=
    match nth_error l f with Some (OLog _ t) | Some (OUnlog _ t) => Some t | _ => None end.
  (** Nobody outside [ds] who lives refers to one of [ds]. *)
  Definition may_die (w : world) (ds : list nat) : bool :=
    forallb (fun x => Nat.ltb x (length (objs (rg w)))) ds &&
    forallb (fun x => mem x ds || mem x (dead w) || match target (objs (rg w)) x with Some t => negb (mem t ds) | None => true end)
            (seq 0 (length (objs (rg w)))).
  (** The callbacks of weak references: dictionary.py 24-28 and those of WeakKeyDictionary and WeakSet: what mentions the dead object k goes. *)
  Definition gone (k : nat) (d : list (nat * nat)) : list (nat * nat) := filter (fun e => negb (Nat.eqb (fst e) k || Nat.eqb (snd e) k)) d.
  Definition sweep (g : reg P) (k : nat) : reg P :=
    mkReg (objs g) (gone k (dec g)) (gone k (unl g)) (filter (fun x => negb (Nat.eqb x k)) (forb g)) (filter (fun x => negb (Nat.eqb x k)) (meth g)).

  (** What happens: a function is defined; a living object is decorated; objects die; the callbacks about a dead one run. *)
  Inductive gop : Type := GDef | GOn (f : nat) (d : deco P) | GDie (ds : list nat) | GSweep (k : nat).
  (** None: this cannot happen.  The second component: what the decorator returned. *)
  Definition gstep (w : world) (o : gop) : option (world * option nat) :=
    match o with
    | GDef => let (g, n) := new (rg w) OFun in Some (mkWorld g (dead w), Some n)
    | GOn f d => if Nat.ltb f (length (objs (rg w))) && alive (dead w) f
                 then let (g, n) := wapply (dead w) (rg w) f d in Some (mkWorld g (dead w), Some n)
                 else None
    | GDie ds => if may_die w ds then Some (mkWorld (rg w) (ds ++ dead w), None) else None
    | GSweep k => if mem k (dead w) then Some (mkWorld (sweep (rg w) k) (dead w), None) else None
    end.
  Fixpoint grun (w : world) (os : list gop) : option (world * list nat) :=
    match os with
    | [] => Some (w, [])
    | o :: r => match gstep w o with
                | None => None
                | Some (w1, x) => match grun w1 r with
                                  | None => None
                                  | Some (w2, xs) => Some (w2, match x with Some n => n :: xs | None => xs end)
                                  end
                end
    end.
  Definition start : world := mkWorld empty [].
End Gc.
Arguments world : clear implicits.
Arguments gop : clear implicits.
