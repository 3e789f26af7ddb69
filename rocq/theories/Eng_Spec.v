(** Vocabulary for the properties of the engine: what can be read off the list of observable events. *)
From Verif Require Import Base Eng_Model.

Fixpoint pick (f : event -> option nat) (tr : list event) : list nat :=
  match tr with
  | [] => []
  | e :: r => match f e with Some x => x :: pick f r | None => pick f r end
  end.
(** Records in the order in which they were: passed to write; handed to instance k; started by it; finished by it. *)
Definition calls : list event -> list nat := pick (fun e => match e with EvCall r => Some r | _ => None end).
Definition rets : list event -> list nat := pick (fun e => match e with EvRet r => Some r | _ => None end).
Definition puts (k : nat) : list event -> list nat :=
  pick (fun e => match e with EvPut k' r => if Nat.eqb k' k then Some r else None | _ => None end).
Definition starts (k : nat) : list event -> list nat :=
  pick (fun e => match e with EvStart k' r => if Nat.eqb k' k then Some r else None | _ => None end).
Definition dones (k : nat) : list event -> list nat :=
  pick (fun e => match e with EvDone k' r => if Nat.eqb k' k then Some r else None | _ => None end).
Definition all_puts : list event -> list nat := pick (fun e => match e with EvPut _ r => Some r | _ => None end).
Definition all_starts : list event -> list nat := pick (fun e => match e with EvStart _ r => Some r | _ => None end).
Definition all_dones : list event -> list nat := pick (fun e => match e with EvDone _ r => Some r | _ => None end).
Definition crashes : list event -> list nat := pick (fun e => match e with EvCrash r => Some r | _ => None end).
Definition loads : list event -> list nat := pick (fun e => match e with EvLoad k => Some k | _ => None end).
Definition inits : list event -> list nat := pick (fun e => match e with EvInit => Some 0 | _ => None end).
Definition times (r : nat) (l : list nat) : nat := count_occ Nat.eq_dec l r.

(** Programs. *)
Definition is_started (c : cmd) : bool := match c with CStarted => true | _ => false end.
Definition is_hook (c : cmd) : bool := match c with CHook => true | _ => false end.
Definition is_set (c : cmd) : bool := match c with CSet _ _ => true | _ => false end.
Definition never (p : cmd -> bool) (progs : list (list cmd)) : Prop := forall cs c, In cs progs -> In c cs -> p c = false.

(** A thread has run all its commands. *)
Definition finished (x : act) : Prop := match x with mkAct (BThread [] TNext) [] => True | mkAct (BThread _ _) _ => False | _ => True end.
Definition is_worker_of (k : nat) (x : act) : Prop := match abase x with BWorker k' _ _ => k' = k | _ => False end.
Definition over (x : act) : Prop := match abase x with BWorker _ _ KExit => astack x = [] | _ => False end.

(** The first write holds the engine lock and waits for the settings lock; a settings change holds the settings lock and
    waits for the engine lock. *)
Definition embrace (s : state) : Prop :=
  (exists x r, In x (actors s) /\ hd_error (astack x) = Some (FWrite W3a r)) /\ (exists y cs, In y (actors s) /\ abase y = BThread cs S2).
(** A writer that chose instance k before k was stopped, and now waits for room in its queue. *)
Definition late (s : state) (k : nat) (x : act) : Prop :=
  exists r e, hd_error (astack x) = Some (FWrite (W6 k) r) /\ nth_error (engs (sh s)) k = Some e /\ e_multi e = true /\ room e = false /\ In (EvStopEnd k) (trace (sh s)).
