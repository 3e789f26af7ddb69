(** Decorators of classes: polog/loggers/auto/class_logger.py 13-72, polog/unlog.py 30-37.

    A class is the dictionary of the attributes that getattr finds on it (its own and the inherited ones); setattr puts
    the attribute into the class itself, so the base classes keep theirs.  Simplified: the attributes are functions or
    data (no nested classes, static methods or properties); dir() gives the names in the order of the dictionary instead
    of the alphabetical order. *)
From Verif Require Import Base Deco_Model.
Local Open Scope string_scope.
Local Open Scope list_scope.

Definition starts_with (s t : string) : bool := String.prefix s t.
Definition ends_with (s t : string) : bool :=
  Nat.leb (String.length s) (String.length t) && String.eqb s (String.substring (String.length t - String.length s) (String.length s) t).

Section Class.
  Context {P : Type}.

  Inductive attr : Type := AFun (x : nat) | AData.
  Definition cls : Type := list (string * attr).
  Definition getattr (c : cls) (n : string) : option attr := dget String.eqb c n.
  Definition setattr (c : cls) (n : string) (a : attr) : cls := dset String.eqb c n a.
  Definition callable (a : attr) : bool := match a with AFun _ => true | AData => false end.

  (** class_logger.py 69: the names that are logged when no names are given. *)
  Definition logging_methods (c : cls) : list string :=
    map fst (filter (fun na => callable (snd na) && (negb (starts_with "__" (fst na)) && negb (ends_with "__" (fst na)))) c).

  (** class_logger.py 22-28, 33-36; unlog.py 32-36: replace the named attributes by decorated ones. *)
  Fixpoint each (g : reg P) (c : cls) (names : list string) (d : deco P) : Res (reg P * cls) :=
    match names with
    | [] => Ok (g, c)
    | n :: r => match getattr c n with
                | None => Err EAttributeError
                | Some AData => Err ETypeError
                | Some (AFun x) => let '(g', x') := apply g x d in each g' (setattr c n (AFun x')) r d
                end
    end.

  Definition named (n : string) (l : list string) : bool := existsb (String.eqb n) l.

  (** class_logger.py 19-37, 44-56. *)
  Definition clog (g : reg P) (c : cls) (methods : list string) (p : P) : Res (reg P * cls) :=
    let all := match methods with [] => logging_methods c | _ => methods end in
    bindR (each g c all (DMeth p)) (fun gc =>
      let originals := match methods with
                       | [] => []
                       | _ => filter (fun n => negb (named n methods)) (logging_methods (snd gc))
                       end in
      each (fst gc) (snd gc) originals DOrig).

  (** The same with methods=(SomeClass,): line 68 takes it for no names at all, lines 51-54 for a name that no method has. *)
  Definition clog_class (g : reg P) (c : cls) (p : P) : Res (reg P * cls) :=
    bindR (each g c (logging_methods c) (DMeth p)) (fun gc => each (fst gc) (snd gc) (logging_methods (snd gc)) DOrig).

  (** unlog.py 31-37. *)
  Definition unlog_class (g : reg P) (c : cls) (full : option bool) : Res (reg P * cls) :=
    each g c (map fst (filter (fun na => negb (starts_with "__" (fst na)) && callable (snd na)) c)) (DUnlog full).

  Inductive cop : Type := CLog (methods : list string) (p : P) | CUnlog (full : option bool).
  Definition capply (gc : reg P * cls) (o : cop) : Res (reg P * cls) :=
    match o with
    | CLog ms p => clog (fst gc) (snd gc) ms p
    | CUnlog b => unlog_class (fst gc) (snd gc) b
    end.
  Fixpoint capplies (gc : reg P * cls) (os : list cop) : Res (reg P * cls) :=
    match os with
    | [] => Ok gc
    | o :: r => bindR (capply gc o) (fun gc' => capplies gc' r)
    end.

  (** The body of a class: data, and functions with their own decorators. *)
  Fixpoint decorate (g : reg P) (x : nat) (ds : list (deco P)) : reg P * nat :=
    match ds with
    | [] => (g, x)
    | d :: r => let '(g', x') := apply g x d in decorate g' x' r
    end.
  Fixpoint class_body (g : reg P) (defs : list (string * option (list (deco P)))) : reg P * cls :=
    match defs with
    | [] => (g, [])
    | (n, None) :: r => let '(g', c) := class_body g r in (g', (n, AData) :: c)
    | (n, Some ds) :: r =>
        let '(g', c) := class_body g r in
        let '(g2, x) := decorate (step g' Def) (length (objs g')) ds in
        (g2, (n, AFun x) :: c)
    end.
End Class.
Arguments cop : clear implicits.
