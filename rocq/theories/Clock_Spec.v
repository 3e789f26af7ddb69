(** What the times of records are to say. *)
From Verif Require Import Base Handle_Model Call_Model Call_Spec.
Local Open Scope string_scope.
Local Open Scope list_scope.

(** The arguments do not give the times themselves. *)
Definition no_times (kw : fields) : Prop := fget kw "time" = None /\ fget kw "time_of_work" = None.
Fixpoint leaves_times (q : prog) : Prop :=
  match q with
  | Done _ => True
  | Logged _ _ _ b k | Unlogged _ b k | Plain _ b k | With _ b k => leaves_times b /\ forall o, leaves_times (k o)
  | Msg _ kw k | Edit _ _ kw k => no_times kw /\ forall o, leaves_times (k o)
  | Suppress _ _ k => forall o, leaves_times (k o)
  | Conf _ k | Drop _ k => leaves_times k
  | New _ kw k => no_times kw /\ forall r, leaves_times (k r)
  | WithR kw _ b k => no_times kw /\ (forall i, leaves_times (b i)) /\ forall o, leaves_times (k o)
  end.

(** The records of a sequence of events. *)
Fixpoint records (t : list ev) : list (kind * fields) :=
  match t with
  | [] => []
  | ERec k f :: r => (k, f) :: records r
  | _ :: r => records r
  end.

(** A record tells that what it is about went on from a to b; a manual record tells one moment and no time of work. *)
Definition tells (stamp span : Z -> val) (r : kind * fields) (a b : Z) : Prop :=
  fget (snd r) "time" = Some (stamp a) /\
  match fst r with
  | KManual => b = a /\ fget (snd r) "time_of_work" = None
  | _ => fget (snd r) "time_of_work" = Some (span (b - a)%Z)
  end.

(** The same of two readings of the clock; the end is a later reading than the beginning. *)
Definition tells_readings (clock : nat -> Z) (stamp span : Z -> val) (r : kind * fields) (ij : nat * nat) : Prop :=
  tells stamp span r (clock (fst ij)) (clock (snd ij)) /\ match fst r with KManual => snd ij = fst ij | _ => fst ij < snd ij end.

(** Every element of the list is in relation R to all that come after it. *)
Fixpoint pairwise {A : Type} (R : A -> A -> Prop) (l : list A) : Prop :=
  match l with [] => True | x :: r => (forall y, In y r -> R x y) /\ pairwise R r end.

(** Of two intervals the first ends before the second begins or lies inside of it. *)
Definition before_or_inside (x y : Z * Z) : Prop := (snd x <= fst y \/ fst y <= fst x /\ snd x <= snd y)%Z.
Definition before_or_inside_readings (x y : nat * nat) : Prop := snd x < fst y \/ (fst y < fst x /\ snd x < snd y).

(** A clock that is never set back. *)
Definition never_back (clock : nat -> Z) : Prop := forall n, (clock n <= clock (S n))%Z.
