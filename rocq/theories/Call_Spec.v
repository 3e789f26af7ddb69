(** The vocabulary of the properties of calls: what the sequence of events tells about logging being off and about the
    fields given to message(), and the documented rules for levels, suppression and the programs considered. *)
From Coq Require Import Relations.
From Verif Require Import Base Handle_Model Supp_Model Call_Model.
Local Open Scope string_scope.
Local Open Scope list_scope.

(** The order of unlog in force after a sequence of events: that of the last call of an unlogged function, nothing once
    one has returned. *)
Definition off_step (u : option (option bool)) (e : ev) : option (option bool) :=
  match e with EOff f => Some f | EOn => None | _ => u end.
Definition off_order (t : list ev) : option (option bool) := fold_left off_step t None.

(** The fields of message() in force after a sequence of events: those of the last message(), unless a logged call has
    begun or an automatic record was made since. *)
Definition ctx_step (m : option fields) (e : ev) : option fields :=
  match e with
  | EMsg f => Some f
  | EStart _ | ELost _ | ERec (KNorm _) _ | ERec (KExc _ _) _ => None
  | _ => m
  end.
Definition ctx_of (t : list ev) : option fields := fold_left ctx_step t None.

(** Logging is switched off in a state. *)
Definition logging_off (s : st) : Prop := unl s = Some (Some true) \/ (unl s = Some None /\ c_full (cf s) = true).

(** All changes of the settings in a program are of the kind R. *)
Fixpoint confs (R : cfg -> cfg -> Prop) (q : prog) : Prop :=
  match q with
  | Done _ => True
  | Logged _ _ _ b k | Unlogged _ b k | Plain _ b k | With _ b k => confs R b /\ forall o, confs R (k o)
  | Msg _ _ k | Edit _ _ _ k | Suppress _ _ k => forall o, confs R (k o)
  | Conf f k => (forall c, R c (f c)) /\ confs R k
  | New _ _ k => forall r, confs R (k r)
  | Drop _ k => confs R k
  | WithR _ _ b k => (forall i, confs R (b i)) /\ forall o, confs R (k o)
  end.

(** Property P of the parameters of all logging layers in a program. *)
Fixpoint layers_ok (P : params -> Prop) (q : prog) : Prop :=
  match q with
  | Done _ => True
  | Logged p _ _ b k => P p /\ layers_ok P b /\ forall o, layers_ok P (k o)
  | Unlogged _ b k | Plain _ b k | With _ b k => layers_ok P b /\ forall o, layers_ok P (k o)
  | Msg _ _ k | Edit _ _ _ k | Suppress _ _ k => forall o, layers_ok P (k o)
  | New _ _ k => forall r, layers_ok P (k r)
  | Conf _ k | Drop _ k => layers_ok P k
  | WithR _ _ b k => (forall i, layers_ok P (b i)) /\ forall o, layers_ok P (k o)
  end.

(** Property G of the classes given to all the blocks "with log.suppress(...)" in a program. *)
Fixpoint supps (G : option (list val) -> Prop) (q : prog) : Prop :=
  match q with
  | Done _ => True
  | Logged _ _ _ b k | Unlogged _ b k | Plain _ b k | With _ b k => supps G b /\ forall o, supps G (k o)
  | Msg _ _ k | Edit _ _ _ k | Suppress _ _ k => forall o, supps G (k o)
  | New _ _ k => forall r, supps G (k r)
  | Conf _ k | Drop _ k => supps G k
  | WithR _ g b k => G g /\ (forall i, supps G (b i)) /\ forall o, supps G (k o)
  end.

(** The number given for a level: a number that is not negative, or a registered name. *)
Inductive level_number (c : cfg) : val -> Z -> Prop :=
| ln_int : forall z, (0 <= z)%Z -> level_number c (VInt z) z
| ln_name : forall s z, dget String.eqb (c_levels c) s = Some z -> level_number c (VStr s) z.

(** The level of a successful call. *)
Inductive normal_level (c : cfg) : option val -> Z -> Prop :=
| nl_default : normal_level c None (c_default c)
| nl_given : forall v z, level_number c v z -> normal_level c (Some v) z.

(** The level of a failed call: an explicit usable errors_level; otherwise the greatest of the two defaults and the usable
    ordinary level. *)
Definition usable (c : cfg) (v : option val) : Prop := exists x z, v = Some x /\ level_number c x z.
Inductive error_level (c : cfg) (elevel level : option val) : Z -> Prop :=
| el_explicit : forall v z, elevel = Some v -> level_number c v z -> error_level c elevel level z
| el_max : forall z, ~ usable c elevel ->
    (forall y, (y = c_default c \/ y = c_error c \/ exists v, level = Some v /\ level_number c v y) -> (y <= z)%Z) ->
    (z = c_default c \/ z = c_error c \/ exists v, level = Some v /\ level_number c v z) -> error_level c elevel level z.

(** Subclasses: the reflexive transitive closure of being a base. *)
Definition direct (h : hier) (c d : nat) : Prop := exists l, nth_error h c = Some l /\ In d l.
Definition subclass (h : hier) : nat -> nat -> Prop := clos_refl_trans nat (direct h).

(** All the given classes are classes of exceptions. *)
Definition exceptions_only (h : hier) (ex : nat) (g : option (list val)) : Prop :=
  forall vs v, g = Some vs -> In v vs -> exists d n m, v = VClass d n m /\ subclass h d ex.

(** The listed exceptions: with subclasses or exactly, by the setting. *)
Definition listed_exception (h : hier) (c : cfg) (e : eobj) (l : list nat) : Prop :=
  exists d, In d l /\ (if c_subcls c then subclass h (e_cls e) d else e_cls e = d).

(** A program without its decorators: a logged function becomes an ordinary one that returns None on the suppressed
    exceptions, an unlogged function an ordinary one. *)
Definition except_for (h : hier) (p : params) (c : cfg) (o : outcome) : outcome :=
  match o with
  | ORet v => ORet v
  | ORaise e => if e_exc e && (p_all p || is_suppressed h c e (p_supp p)) then ORet VNone else ORaise e
  end.
Fixpoint bare (h : hier) (q : prog) : prog :=
  match q with
  | Done o => Done o
  | Logged p _ _ b k => Plain (except_for h p) (bare h b) (fun o => bare h (k o))
  | Unlogged _ b k => Plain (fun _ o => o) (bare h b) (fun o => bare h (k o))
  | Plain x b k => Plain x (bare h b) (fun o => bare h (k o))
  | Msg args kw k => Msg args kw (fun o => bare h (k o))
  | Conf f k => Conf f (bare h k)
  | New args kw k => New args kw (fun r => bare h (k r))
  | Drop i k => Drop i (bare h k)
  | Suppress i vs k => Suppress i vs (fun o => bare h (k o))
  | Edit i args kw k => Edit i args kw (fun o => bare h (k o))
  | With i b k => With i (bare h b) (fun o => bare h (k o))
  | WithR kw supp b k => WithR kw supp (fun i => bare h (b i)) (fun o => bare h (k o))
  end.

(** Records in a sequence of events. *)
Definition is_rec (e : ev) : bool := match e with ERec _ _ => true | _ => false end.
Definition of_call (n : nat) (e : ev) : bool :=
  match e with ERec (KNorm m) _ => Nat.eqb n m | ERec (KExc m _) _ => Nat.eqb n m | _ => false end.
Definition of_error (i : nat) (e : ev) : bool := match e with ERec (KExc _ x) _ => Nat.eqb i (e_id x) | _ => false end.
Definition of_block (i : nat) (e : ev) : bool := match e with ERec (KBlock j) _ => Nat.eqb i j | _ => false end.
Definition count (q : ev -> bool) (t : list ev) : nat := length (filter q t).
