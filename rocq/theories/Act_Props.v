(** Property C69: the settings log_is_built_in and fields_intersection take effect when they are assigned. *)
From Verif Require Import Base Act_Model.
Local Open Scope list_scope.

(** The last bool assigned. *)
Fixpoint last_bool (d : bool) (ops : list bop) : bool :=
  match ops with
  | [] => d
  | BSet (VB b) :: r => last_bool b r
  | _ :: r => last_bool d r
  end.

(** C69: the setting reads as the last bool assigned, whatever else is tried and done to the built-in name; at first it is False. *)
Theorem C69_value : forall n ops, on (fold_left bstep ops (before n)) = last_bool false ops.
Proof.
  intros n ops; assert (G : forall ops s, on (fold_left bstep ops s) = last_bool (on s) ops).
  { clear; induction ops as [|[[b|]|m|] r IH]; intros s; cbn [fold_left last_bool]; [reflexivity|rewrite IH; reflexivity..]. }
  apply G.
Qed.

(** C69: in a program that leaves builtins.log to polog, the name log is built in exactly while the setting is on. *)
Theorem C69_built_in : forall ops, (forall o, In o ops -> exists v, o = BSet v) ->
  name (fold_left bstep ops (before None)) = if last_bool false ops then Some the_log else None.
Proof.
  intros ops H; assert (G : forall ops s, (forall o, In o ops -> exists v, o = BSet v) -> name s = (if on s then Some the_log else None) ->
    name (fold_left bstep ops s) = if last_bool (on s) ops then Some the_log else None).
  { clear; induction ops as [|o r IH]; intros s H E; cbn [fold_left]; [exact E|].
    destruct (H o (or_introl eq_refl)) as [v ->]; destruct v as [b|]; cbn [last_bool bstep assign fst].
    - apply (IH (mkBuilt b (is_action set_log (on s) b (name s)))); [intros x X; apply H; right; exact X|].
      cbn [on name]; unfold is_action; destruct s as [[|] m], b; cbn in *; auto.
    - apply IH; [intros x X; apply H; right; exact X|exact E]. }
  exact (G ops (before None) H eq_refl).
Qed.

(** C69: an assignment that changes the setting decides the built-in name, whatever was there; one that does not, or is refused, leaves it. *)
Theorem C69_assignment : forall n ops v,
  let s := fold_left bstep ops (before n) in
  (forall b, v = VB b -> b <> last_bool false ops -> assign s v = (mkBuilt b (if b then Some the_log else None), Ok tt)) /\
  (forall b, v = VB b -> b = last_bool false ops -> assign s v = (s, Ok tt)) /\
  ((forall b, v <> VB b) -> assign s v = (s, Err EValueError)).
Proof.
  intros n ops v s; pose proof (C69_value n ops) as V; fold s in V; clearbody s; split; [|split].
  - intros b -> N; rewrite <- V in N; unfold assign, is_action; destruct (Bool.eqb (on s) b) eqn:E; [apply Bool.eqb_prop in E; congruence|reflexivity].
  - intros b -> ->; rewrite <- V; unfold assign, is_action; rewrite Bool.eqb_reflx; destruct s; reflexivity.
  - destruct v as [b|]; [intros H; destruct (H b eq_refl)|reflexivity].
Qed.

(** C69: turning the setting on and off again does not give the program's own built-in log back. *)
Theorem C69_restores_refuted : ~ (forall n, name (fold_left bstep [BSet (VB true); BSet (VB false)] (before n)) = n).
Proof. intros H; specialize (H (Some 5)); discriminate. Qed.
(** C69: and while it is on, log need not be there, nor does assigning True again help. *)
Theorem C69_while_on_refuted : ~ (forall n ops, on (fold_left bstep (ops ++ [BSet (VB true)]) (before n)) = true -> name (fold_left bstep (ops ++ [BSet (VB true)]) (before n)) = Some the_log).
Proof. intros H; specialize (H None [BSet (VB true); BDel] eq_refl); discriminate. Qed.

Example ex_built : fold_left bstep [BSet VElse; BSet (VB true); BSet VElse; BSet (VB true)] (before None) = mkBuilt true (Some the_log).
Proof. reflexivity. Qed.

(** *** fields_intersection *)

(** Nobody is in the first __new__ any more. *)
Definition warm (s : st) : Prop := swapped s = true /\ forall t, cpcs s t = CIdle.

Lemma warm_step : forall s l s1, warm s -> step s l = Some s1 -> warm s1.
Proof.
  intros s l s1 [W I] E; destruct l as [t|t|b|]; cbn in E.
  - rewrite I, W in E; injection E as <-; split; assumption.
  - rewrite I in E; discriminate.
  - destruct (setter s); [discriminate|]; injection E as <-; split; assumption.
  - destruct (setter s) as [[o n]|]; [|discriminate]; injection E as <-; split; assumption.
Qed.

Definition in_step (s : st) : Prop :=
  match setter s with
  | None => cached s = Some (setting s)
  | Some (old, new) => setting s = new /\ (old = new -> cached s = Some new)
  end.
Lemma in_step_step : forall s l s1, warm s -> in_step s -> step s l = Some s1 -> in_step s1.
Proof.
  intros s l s1 [W I] Q E; unfold in_step in *; destruct l as [t|t|b|]; cbn in E.
  - rewrite I, W in E; injection E as <-; exact Q.
  - rewrite I in E; discriminate.
  - destruct (setter s) eqn:S; [discriminate|]; injection E as <-; cbn; split; [reflexivity|]; intros <-; exact Q.
  - destruct (setter s) as [[o n]|] eqn:S; [|discriminate]; injection E as <-; cbn; destruct Q as [-> Q]; unfold is_action.
    destruct (Bool.eqb o n) eqn:E; [apply Bool.eqb_prop in E; auto|reflexivity].
Qed.

(** C69: once no thread is in its first creation of a record and the records go by the setting, they do for ever: in every interleaving, whenever no
    assignment is half done, the records go by the value that was assigned last. *)
Theorem C69_steady : forall s l s1, warm s -> setter s = None -> cached s = Some (setting s) -> run s l = Some s1 -> setter s1 = None ->
  cached s1 = Some (setting s1).
Proof.
  intros s l s1 W N C R N1.
  assert (G : forall l s, warm s -> in_step s -> run s l = Some s1 -> in_step s1).
  { clear; induction l as [|x r IH]; intros s W Q R; cbn in R; [injection R as <-; exact Q|].
    destruct (step s x) as [s2|] eqn:E; [|discriminate]; exact (IH s2 (warm_step s x s2 W E) (in_step_step s x s2 W Q E) R). }
  specialize (G l s W); unfold in_step in G at 1; rewrite N in G; specialize (G C R); unfold in_step in G; rewrite N1 in G; exact G.
Qed.

(** C69: whatever happened before, the first assignment after that which changes the setting brings the records in line with it. *)
Theorem C69_change_repairs : forall s b s1, warm s -> setting s <> b -> run s [LSet b; LAct] = Some s1 ->
  warm s1 /\ setter s1 = None /\ setting s1 = b /\ cached s1 = Some b.
Proof.
  intros s b s1 W N R; cbn in R; destruct (setter s) eqn:S; [discriminate|]; cbn in R; injection R as <-; cbn; repeat split; try apply W; auto.
  unfold is_action; destruct (Bool.eqb (setting s) b) eqn:E; [apply Bool.eqb_prop in E; contradiction|reflexivity].
Qed.

(** A program whose assignments and first creations do not overlap. *)
Inductive pop : Type := PNew (t : nat) | PSet (b : bool).
Definition whole (s : st) (o : pop) : list label :=
  match o with
  | PNew t => if swapped s then [LNew t] else [LNew t; LGo t; LGo t; LGo t]
  | PSet b => [LSet b; LAct]
  end.
Fixpoint program (s : st) (ops : list pop) : option st :=
  match ops with [] => Some s | o :: r => match run s (whole s o) with Some s1 => program s1 r | None => None end end.
Fixpoint last_set (d : bool) (ops : list pop) : bool := match ops with [] => d | PSet b :: r => last_set b r | _ :: r => last_set d r end.

(** C69: if they do not overlap (a single thread, for example), the program never stops at an assignment, and as soon as a record was created the records go by
    the value assigned last, from the default on. *)
Theorem C69_sequential : forall ops, exists s, program start ops = Some s /\ setting s = last_set false ops /\
  ((exists t, In (PNew t) ops) -> cached s = Some (last_set false ops)).
Proof.
  intros ops.
  assert (G : forall ops s, setter s = None -> (forall t, cpcs s t = CIdle) -> (swapped s = true -> cached s = Some (setting s)) ->
    exists s1, program s ops = Some s1 /\ setting s1 = last_set (setting s) ops /\ ((exists t, In (PNew t) ops) \/ swapped s = true -> cached s1 = Some (last_set (setting s) ops))).
  { clear ops; induction ops as [|o r IH]; intros s N I C; cbn [program last_set].
    - exists s; repeat split; intros [[t []]|W]; auto.
    - destruct o as [t|b]; cbn [whole].
      + destruct (swapped s) eqn:W.
        * cbn [run step]; rewrite I, W; destruct (IH s N I ltac:(auto)) as (s1 & P & V & K); exists s1; split; [exact P|split; [exact V|]].
          intros _; apply K; right; exact W.
        * set (s2 := mkSt (setting s) (Some (setting s)) true (setter s) (upd (upd (upd (upd (cpcs s) t CFirst) t (CRead (setting s))) t CWrote) t CIdle)).
          assert (E : run s [LNew t; LGo t; LGo t; LGo t] = Some s2).
          { cbn; rewrite I, W; cbn; unfold upd at 1; rewrite Nat.eqb_refl; cbn; unfold upd at 1; rewrite Nat.eqb_refl; cbn; unfold upd at 1; rewrite Nat.eqb_refl; reflexivity. }
          rewrite E; destruct (IH s2 N) as (s1 & P & V & K).
          { intros u; cbn; unfold upd; destruct (Nat.eqb u t); [reflexivity|apply I]. }
          { reflexivity. }
          exists s1; split; [exact P|split; [exact V|]]; intros _; apply K; right; reflexivity.
      + cbn [run step]; rewrite N; cbn; destruct (IH (mkSt b (is_action (fun b0 _ => Some b0) (setting s) b (cached s)) (swapped s) None (cpcs s)) eq_refl I) as (s1 & P & V & K).
        { cbn; intros W; unfold is_action; destruct (Bool.eqb (setting s) b) eqn:E; [apply Bool.eqb_prop in E; rewrite <- E; auto|reflexivity]. }
        exists s1; split; [exact P|split; [exact V|]]; intros [[t [T|T]]|W]; [discriminate|apply K; left; exists t; exact T|apply K; right; exact W]. }
  destruct (G ops start eq_refl (fun _ => eq_refl) ltac:(discriminate)) as (s & P & V & K); exists s; split; [exact P|split; [exact V|]].
  intros T; apply K; left; exact T.
Qed.
(** Two assignments around a first record. *)
Example ex_program : match program start [PSet true; PNew 0; PSet false; PNew 1; PSet true] with Some s => cached s = Some true | None => False end.
Proof. vm_compute; reflexivity. Qed.

(** A thread has read the old value in its first creation; another assigns a new one; the first thread stores the old one. *)
Definition race : list label := [LNew 0; LGo 0; LSet true; LAct; LGo 0; LGo 0].
(** C69: if an assignment meets the first creation of a record, the records can go by the old value for good; assigning the value again
    does not help. *)
Theorem C69_always_refuted : ~ (forall l s, run start l = Some s -> warm s -> setter s = None -> cached s = Some (setting s)).
Proof.
  intros H; specialize (H race _ eq_refl); assert (X : Some false = Some true); [|discriminate X]; apply H; [|reflexivity].
  split; [reflexivity|]; intros t; cbn; unfold upd; destruct (Nat.eqb t 0); reflexivity.
Qed.
Theorem C69_again_refuted : ~ (forall l b s, run start (l ++ [LSet b; LAct]) = Some s -> warm s -> cached s = Some b).
Proof.
  intros H; specialize (H race true _ eq_refl); assert (X : Some false = Some true); [|discriminate X]; apply H.
  split; [reflexivity|]; intros t; cbn; unfold upd; destruct (Nat.eqb t 0); reflexivity.
Qed.

Print Assumptions C69_value. Print Assumptions C69_built_in. Print Assumptions C69_assignment. Print Assumptions C69_restores_refuted.
Print Assumptions C69_while_on_refuted. Print Assumptions C69_steady. Print Assumptions C69_change_repairs. Print Assumptions C69_sequential.
Print Assumptions C69_always_refuted. Print Assumptions C69_again_refuted.
