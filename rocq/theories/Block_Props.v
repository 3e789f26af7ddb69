(** Theorems about suppression, with-blocks, dotted levels and the level of errors (C29, C31 - C33, C44). *)
From Coq Require Import Relations Lia.
From Verif Require Import Base Handle_Model Handle_Spec Handle_Proofs Handle_Props Supp_Model Call_Model Call_Spec Call_Proofs Call_Inv Call_Struct Call_Sim Call_Props.
Local Open Scope string_scope.
Local Open Scope list_scope.

(** * C29: which exceptions are swallowed *)

(** C29: a decorated function swallows an exception exactly when it is an Exception and everything is suppressed, or its
    class is listed (with subclasses or exactly, by the setting); unless logging it fails. *)
Theorem C29_decorator : forall W p a kw n e s, hier_ok (hi W) -> is_ok (estr (ce W) e) = true -> is_ok (jvars W a kw) = true ->
  let o := snd (after W p a kw n (ORaise e) s) in
  (o = ORet VNone <-> e_exc e = true /\ (p_all p = true \/ listed_exception (hi W) (cf s) e (p_supp p))) /\
  (o = ORaise e <-> ~ (e_exc e = true /\ (p_all p = true \/ listed_exception (hi W) (cf s) e (p_supp p)))).
Proof.
  intros W p a kw n e s Hh J1 J2; cbv zeta; destruct (after W p a kw n (ORaise e) s) as [s' o'] eqn:E; cbn [snd].
  assert (X : o' = except_for (hi W) p (cf s) (ORaise e)).
  { destruct (C25_outcome_of_a_call W p a kw n (ORaise e) s s' o' E) as [X|[_ [x [e' [_ [_ [_ H]]]]]]]; [exact X|exfalso].
    destruct H as [[v [H _]]|[[e1 [H1 H2]]|H]]; [discriminate|injection H1 as <-; rewrite H2 in J1; discriminate|rewrite H in J2; discriminate]. }
  subst o'; cbn; rewrite <- (is_suppressed_spec (hi W) (cf s) e (p_supp p) Hh).
  destruct (e_exc e), (p_all p), (is_suppressed (hi W) (cf s) e (p_supp p)); cbn; split; split; intros H; try discriminate; try reflexivity; auto;
    try (destruct H as [H1 H2]; try discriminate; destruct H2; discriminate);
    try (exfalso; apply H; auto); intros [H1 H2]; try discriminate; destruct H2; discriminate.
Qed.

(** The rule of a with-block. *)
Definition swallows (W : cenv) (c : cfg) (x : fin) (e : eobj) : Prop :=
  f_all x = true \/ (f_supp x <> [] /\ listed_exception (hi W) c e (f_supp x)) \/ (f_supp x = [] /\ c_supp c = true).

(** C29: the same for a with-block that an exception leaves; if finalising fails, another exception leaves it. *)
Theorem C29_block : forall W s i e s' o', hier_ok (hi W) -> leave W s i (ORaise e) = (s', o') ->
  (swallows W (cf s) (get_fin s i) e /\ o' = ORet VNone) \/ (~ swallows W (cf s) (get_fin s i) e /\ o' = ORaise e) \/
  (exists z, o' = ORaise (mkE (2 * nexte s + 1) (icls W z) true) /\ tr s' = tr s).
Proof.
  intros W s i e s' o' Hh H; unfold leave in H; set (x := get_fin s i) in *.
  destruct (estr (ce W) e) as [t|z]; cbn [bindR] in H; [|right; right; exists z; cbn in H; injection H as <- <-; auto].
  cbv zeta in H; set (s1 := put_fin s i _) in H.
  destruct (manual W (KBlock i) [] _ s1) as [s2 r] eqn:M.
  destruct (manual_cases W _ _ _ _ _ _ M) as [[-> _]|[_ [-> [f [_ ->]]]]].
  - destruct r as [u|z]; [|right; right; exists z; cbn in H; injection H as <- <-; auto].
    change (cf s1) with (cf s) in H; unfold swallows; destruct (f_all x); [injection H as <- <-; left; auto|].
    destruct (f_supp x) as [|d l].
    + destruct (c_supp (cf s)); injection H as <- <-; [left; auto|right; left; split; [|reflexivity]]; intros [Z|[[Z _]|[_ Z]]]; [discriminate|apply Z; reflexivity|discriminate].
    + pose proof (is_suppressed_spec (hi W) (cf s) e (d :: l) Hh) as Sp; destruct (is_suppressed (hi W) (cf s) e (d :: l)); injection H as <- <-.
      * left; split; [right; left; split; [discriminate|apply Sp; reflexivity]|reflexivity].
      * right; left; split; [|reflexivity]; intros [Z|[[_ Z]|[Z _]]]; [discriminate|apply Sp in Z; discriminate|discriminate].
  - change (cf (emit s1 (ERec (KBlock i) f))) with (cf s) in H; unfold swallows; destruct (f_all x); [injection H as <- <-; left; auto|].
    destruct (f_supp x) as [|d l].
    + destruct (c_supp (cf s)); injection H as <- <-; [left; auto|right; left; split; [|reflexivity]]; intros [Z|[[Z _]|[_ Z]]]; [discriminate|apply Z; reflexivity|discriminate].
    + pose proof (is_suppressed_spec (hi W) (cf s) e (d :: l) Hh) as Sp; destruct (is_suppressed (hi W) (cf s) e (d :: l)); injection H as <- <-.
      * left; split; [right; left; split; [discriminate|apply Sp; reflexivity]|reflexivity].
      * right; left; split; [|reflexivity]; intros [Z|[[_ Z]|[Z _]]]; [discriminate|apply Sp in Z; discriminate|discriminate].
Qed.

(** C29: .suppress(): without arguments everything; in silent mode the arguments that are not exceptions are skipped, in
    loud mode one such argument raises ValueError and nothing is added. *)
Definition exception_class (W : cenv) (v : val) (d : nat) : Prop := exists n m, v = VClass d n m /\ subclass (hi W) d (exc W).
Inductive classes (W : cenv) : list val -> list nat -> Prop :=
| cl_nil : classes W [] []
| cl_take : forall v d r l, exception_class W v d -> classes W r l -> classes W (v :: r) (d :: l)
| cl_skip : forall v r l, (forall d, ~ exception_class W v d) -> classes W r l -> classes W (v :: r) l.

Lemma class_dec : forall W v, hier_ok (hi W) ->
  (exists d n m, v = VClass d n m /\ issubclass (hi W) d (exc W) = true /\ exception_class W v d) \/
  ((forall d, ~ exception_class W v d) /\ forall d n m, v = VClass d n m -> issubclass (hi W) d (exc W) = false).
Proof.
  intros W v Hh; destruct v as [| | | | |d n m| |]; try (right; split; [intros d [n0 [m0 [Z _]]]; discriminate|intros d n0 m0 Z; discriminate]).
  destruct (issubclass (hi W) d (exc W)) eqn:E.
  - left; exists d, n, m; split; [reflexivity|split; [exact E|]]; exists n, m; split; [reflexivity|apply issubclass_spec; assumption].
  - right; split; [intros d' [n' [m' [Z S]]]|intros d' n' m' Z]; injection Z as <- <- <-; [|exact E].
    apply issubclass_spec in S; [congruence|exact Hh].
Qed.
Lemma classes_silent : forall W c vs l, hier_ok (hi W) -> c_silent c = true -> (suppress_classes (hi W) (exc W) c vs = Ok l <-> classes W vs l).
Proof.
  intros W c vs l Hh Si; revert l; induction vs as [|v r IH]; intros l; cbn [suppress_classes].
  { split; [intros Z; injection Z as <-; constructor|intros Z; inversion Z; reflexivity]. }
  unfold maybe_raise; rewrite Si; cbn [bindR].
  destruct (class_dec W v Hh) as [[d [n [m [-> [Eb Ec]]]]]|[Nc Eb]].
  - rewrite Eb; destruct (suppress_classes (hi W) (exc W) c r) as [l'|z] eqn:Er; cbn [bindR].
    + split; [intros Z; injection Z as <-; constructor; [exact Ec|apply IH; reflexivity]|].
      intros Z; inversion Z as [|v0 d0 r0 l0 X Y|v0 r0 l0 X Y]; subst; [|exfalso; exact (X d Ec)].
      destruct X as [n0 [m0 [X _]]]; injection X as -> _ _; apply IH in Y; injection Y as ->; reflexivity.
    + split; [discriminate|]; intros Z; inversion Z as [|v0 d0 r0 l0 X Y|v0 r0 l0 X Y]; subst; [|exfalso; exact (X d Ec)].
      apply IH in Y; discriminate.
  - assert (Es : match v with VClass d _ _ => if issubclass (hi W) d (exc W) then bindR (suppress_classes (hi W) (exc W) c r) (fun l => Ok (d :: l)) else suppress_classes (hi W) (exc W) c r | _ => suppress_classes (hi W) (exc W) c r end = suppress_classes (hi W) (exc W) c r).
    { destruct v as [| | | | |d n m| |]; try reflexivity; rewrite (Eb d n m eq_refl); reflexivity. }
    rewrite Es, IH; split; [intros Y; constructor; assumption|intros Z; inversion Z as [|v0 d0 r0 l0 X Y|v0 r0 l0 X Y]; subst; [exfalso; exact (Nc _ X)|exact Y]].
Qed.
Theorem C29_suppress_arguments_silent : forall W c all l vs, hier_ok (hi W) -> c_silent c = true ->
  exists new, classes W vs new /\ suppress (hi W) (exc W) c all l vs = Ok (match vs with [] => true | _ => all end, l ++ new).
Proof.
  intros W c all l vs Hh Si; unfold suppress.
  assert (Ex : exists new, suppress_classes (hi W) (exc W) c vs = Ok new).
  { clear all l; induction vs as [|v r [new IH]]; [exists []; reflexivity|]; cbn [suppress_classes].
    unfold maybe_raise; rewrite Si, IH; cbn [bindR].
    destruct v as [| | | | |d n m| |]; eauto; destruct (issubclass _ _ _); cbn; eauto. }
  destruct Ex as [new E]; exists new; split; [apply (classes_silent W c); assumption|rewrite E; reflexivity].
Qed.
Theorem C29_suppress_arguments_loud : forall W c all l vs, hier_ok (hi W) -> c_silent c = false ->
  (forall new, Forall2 (exception_class W) vs new -> suppress (hi W) (exc W) c all l vs = Ok (match vs with [] => true | _ => all end, l ++ new)) /\
  ((exists v, In v vs /\ forall d, ~ exception_class W v d) -> suppress (hi W) (exc W) c all l vs = Err EValueError).
Proof.
  intros W c all l vs Hh Lo; split.
  - intros new F; unfold suppress; assert (E : suppress_classes (hi W) (exc W) c vs = Ok new); [|rewrite E; reflexivity].
    clear all l; induction F as [|v d r new' [n [m [-> S]]] F IH]; [reflexivity|]; cbn [suppress_classes].
    apply issubclass_spec in S; [|exact Hh]; rewrite S, IH; reflexivity.
  - intros [v [Hin Nv]]; unfold suppress; assert (E : suppress_classes (hi W) (exc W) c vs = Err EValueError); [|rewrite E; reflexivity].
    induction vs as [|u r IH]; [destruct Hin|]; cbn [suppress_classes]; unfold maybe_raise; rewrite Lo; cbn [bindR].
    destruct (class_dec W u Hh) as [[d [n [m [-> [Eb Ec]]]]]|[Nc Eb]].
    + rewrite Eb; destruct Hin as [<-|Hin]; [exfalso; exact (Nv _ Ec)|rewrite (IH Hin); reflexivity].
    + destruct u as [| | | | |d n m| |]; try reflexivity; rewrite (Eb d n m eq_refl); reflexivity.
Qed.

(** C29: the same for the call itself, whoever makes it and wherever: it changes only what its own object suppresses. *)
Theorem C29_suppress_call : forall W s i vs k, hier_ok (hi W) -> i < length (fins s) ->
  exists s1 o, exec W (Suppress i vs k) s = exec W (k o) s1 /\ tr s1 = tr s /\ (forall j, j <> i -> get_fin s1 j = get_fin s j) /\
  let before := get_fin s i in let now_ := get_fin s1 i in
  ((c_silent (cf s) = true \/ forall v, In v vs -> exists d, exception_class W v d) -> o = ORet VNone /\
     f_all now_ = (match vs with [] => true | _ => f_all before end) /\ exists new, classes W vs new /\ f_supp now_ = f_supp before ++ new) /\
  (c_silent (cf s) = false -> (exists v, In v vs /\ forall d, ~ exception_class W v d) -> now_ = before /\ o = ORaise (mkE (2 * nexte s + 1) (icls W EValueError) true)).
Proof.
  intros W s i vs k Hh L; cbn [exec]; unfold add_supp.
  assert (Same : forall x, get_fin (put_fin s i x) i = x).
  { intros x; unfold get_fin, put_fin; cbn; revert i L; induction (fins s) as [|y r IH]; intros [|i] L; cbn in *; try lia; [reflexivity|apply IH; lia]. }
  assert (Rest : forall x j, j <> i -> get_fin (put_fin s i x) j = get_fin s j).
  { intros x j Nj; unfold get_fin, put_fin; cbn; clear Same; revert i j L Nj; induction (fins s) as [|y r IH]; intros [|i] [|j] L Nj; cbn in *; try lia; try reflexivity; apply IH; lia. }
  set (x := get_fin s i) in *.
  assert (Good : forall new, classes W vs new -> suppress (hi W) (exc W) (cf s) (f_all x) (f_supp x) vs = Ok (match vs with [] => true | _ => f_all x end, f_supp x ++ new) ->
    exists s1 o, (let '(s1, r) := match suppress (hi W) (exc W) (cf s) (f_all x) (f_supp x) vs with
      | Ok (all, l) => (put_fin s i (mkFin (f_args x) (f_kw x) (f_data x) l all (f_used x) (f_entered x)), Ok tt) | Err z => (s, Err z) end in
      let '(s2, o) := result W s1 r in exec W (k o) s2) = exec W (k o) s1 /\ tr s1 = tr s /\ (forall j, j <> i -> get_fin s1 j = get_fin s j) /\
    o = ORet VNone /\ f_all (get_fin s1 i) = match vs with [] => true | _ => f_all x end /\ f_supp (get_fin s1 i) = f_supp x ++ new).
  { intros new _ E; rewrite E; cbn [result]; eexists _, _; split; [reflexivity|]; split; [reflexivity|]; split; [intros j Nj; apply Rest, Nj|].
    split; [reflexivity|]; rewrite Same; auto. }
  destruct (c_silent (cf s)) eqn:Si.
  - destruct (C29_suppress_arguments_silent W (cf s) (f_all x) (f_supp x) vs Hh Si) as (new & Cl & E).
    destruct (Good new Cl E) as (s1 & o & E1 & T & R & O & A & B); exists s1, o; split; [exact E1|]; split; [exact T|]; split; [exact R|]; cbv zeta.
    split; [intros _; eauto 10|intros Z; discriminate Z].
  - destruct (C29_suppress_arguments_loud W (cf s) (f_all x) (f_supp x) vs Hh Si) as (G & B).
    assert (Dec : (exists new, Forall2 (exception_class W) vs new) \/ exists v, In v vs /\ forall d, ~ exception_class W v d).
    { clear -Hh; induction vs as [|v r IH]; [left; exists []; constructor|]; destruct (class_dec W v Hh) as [(d & _ & _ & _ & _ & Ec)|[Nc _]].
      - destruct IH as [(new & F)|(u & Hu & Nu)]; [left; exists (d :: new); constructor; assumption|right; exists u; split; [right; exact Hu|exact Nu]].
      - right; exists v; split; [left; reflexivity|exact Nc]. }
    destruct Dec as [(new & F)|Bad].
    + assert (Cl : classes W vs new) by (clear -F; induction F; constructor; assumption).
      destruct (Good new Cl (G new F)) as (s1 & o & E1 & T & R & O & A & A2); exists s1, o; split; [exact E1|]; split; [exact T|]; split; [exact R|]; cbv zeta.
      split; [intros _; eauto 10|]; intros _ (v & Hv & Nv); exfalso; clear -F Hv Nv; induction F as [|u d r new U F IH]; [destruct Hv|]; destruct Hv as [->|Hv]; [exact (Nv _ U)|exact (IH Hv)].
    + rewrite (B Bad); cbn [result raise_]; eexists _, _; split; [reflexivity|]; split; [reflexivity|]; split; [intros; reflexivity|]; cbv zeta; split.
      * intros [Z|Z]; [discriminate Z|]; destruct Bad as (v & Hv & Nv); destruct (Z v Hv) as (d & Ed); destruct (Nv d Ed).
      * intros _ _; split; reflexivity.
Qed.

(** * C31, C32: with-blocks *)

(** C31: an object can be entered once, and not after another use. *)
Theorem C31_entered_once : forall W i b k s, f_used (get_fin s i) = true \/ f_entered (get_fin s i) = true ->
  exec W (With i b k) s = exec W (k (ORaise (mkE (2 * nexte s + 1) (icls W EIncorrectUse) true))) (bump_e s).
Proof.
  intros W i b k s H; cbn [exec]; unfold enter.
  assert (E : f_used (get_fin s i) || f_entered (get_fin s i) = true) by (apply Bool.orb_true_iff; exact H); rewrite E; reflexivity.
Qed.

(** C31: the exit of "with log" finalises the object that this block has entered, whatever blocks the body has opened and
    left, and the stack is as before the block. *)
Theorem C31_exit_finalises_own_block : forall W kw g body k s, supps (good W) (WithR kw g body k) -> rstack s <> Some [] ->
  exists s1 s2 s4 s5 s6 s7 o o', let i := length (fins s) in
    s1 = push (set_fins s (fins s ++ [mkFin [] [] [] [] false false false])) i /\ enter W s1 i = Some s2 /\
    partial_enter W s2 i kw g = (s4, Ok tt) /\ exec W (body i) s4 = (s5, o) /\
    s6 = set_stack s5 (rstack s) /\ leave W s6 i o = (s7, o') /\ rstack s7 = rstack s /\
    exec W (WithR kw g body k) s = exec W (k o') s7.
Proof.
  intros W kw g body k s [Hg [Hb Hk]] Ns.
  set (i := length (fins s)); set (s1 := push (set_fins s (fins s ++ [mkFin [] [] [] [] false false false])) i).
  destruct (fresh_enter W s) as [s2 E2]; cbv zeta in E2; fold i in E2; fold s1 in E2.
  destruct (partial_enter W s2 i kw g) as [s4 r] eqn:E4.
  destruct r as [[]|z]; [|exfalso; exact (good_partial W s2 i kw g s4 z Hg E4)].
  destruct (exec W (body i) s4) as [s5 o] eqn:E5.
  destruct (open_frame W s kw g s1 s2 s4 (Ok tt) eq_refl E2 E4) as [R4 _]; fold i in R4.
  assert (R5 : rstack s5 = rstack s4) by (apply (rstack_kept W (body i)) with (o := o); [apply Hb|exact E5|rewrite R4; destruct (rstack s); discriminate]).
  destruct (leave W (set_stack s5 (rstack s)) i o) as [s7 o'] eqn:E7.
  exists s1, s2, s4, s5, (set_stack s5 (rstack s)), s7, o, o'; cbv zeta; fold i.
  split; [reflexivity|split; [exact E2|split; [exact E4|split; [exact E5|split; [reflexivity|split; [exact E7|split]]]]]].
  - destruct (leave_frame W _ _ _ _ _ E7) as [F _]; exact F.
  - cbn [exec]; fold i; fold s1; rewrite E2, E4, E5; unfold pop; rewrite R5, R4.
    destruct (rstack s) as [[|x l]|] eqn:Er; [contradiction| |]; rewrite E7; reflexivity.
Qed.

(** C31: in any program every with-block writes at most one record and the stack is empty again at the end. *)
Theorem C31_one_record_per_block : forall W q c s o i, hier_ok (hi W) -> supps (exceptions_only (hi W) (exc W)) q -> exec W q (start c) = (s, o) ->
  count (of_block i) (tr s) <= 1 /\ rstack s = None.
Proof.
  intros W q c s o i Hh Hs H.
  assert (Hg : supps (good W) q).
  { assert (Mono : forall q, supps (exceptions_only (hi W) (exc W)) q -> supps (good W) q).
    { clear - Hh; induction q as [o|p a kw body IHb k IHk|full body IHb k IHk|h body IHb k IHk|args kw k IHk|f k IHk|args kw k IHk
                      |i k IHk|i cs k IHk|i args kw k IHk|i body IHb k IHk|kw supp body IHb k IHk]; cbn [supps]; intros Hs; auto.
      1-4: destruct Hs as [A B]; split; auto.
      destruct Hs as [A [B C]]; split; [|split; auto].
      intros cc all l vs ->; apply (suppress_good (hi W) (exc W) cc all l vs Hh A). }
    exact (Mono q Hs). }
  split.
  - destruct (exec_per_block W q Hg _ _ _ H) as [new [T [_ C]]]; [discriminate|]; rewrite T; change (tr (start c) ++ new) with new; apply C.
  - rewrite (rstack_kept W q Hg _ _ _ H); [reflexivity|discriminate].
Qed.

(** One key among the arguments of the finalised record: no other argument can mean it. *)
Definition plain_key (k : string) : Prop := ~ In k ["local_variables"; "exception"; "class"; "vars"; "locals"; "e"; "class_"].
Lemma plain_only : forall k0 k, plain_key k -> convert_key k0 = k -> k0 = k.
Proof.
  intros k0 k P E; unfold convert_key in E; cbn [In plain_key] in P; unfold plain_key in P; cbn [In] in P.
  destruct (String.eqb k0 "vars"); [exfalso; apply P; auto|]; destruct (String.eqb k0 "locals"); [exfalso; apply P; auto|].
  destruct (String.eqb k0 "e"); [exfalso; apply P; auto|]; destruct (String.eqb k0 "class_"); [exfalso; apply P; auto|exact E].
Qed.
Lemma plain_same : forall k, plain_key k -> convert_key k = k.
Proof.
  intros k P; unfold plain_key in P; cbn [In] in P; unfold convert_key.
  destruct (String.eqb_spec k "vars") as [->|]; [exfalso; apply P; auto 10|].
  destruct (String.eqb_spec k "locals") as [->|]; [exfalso; apply P; auto 10|].
  destruct (String.eqb_spec k "e") as [->|]; [exfalso; apply P; auto 10|].
  destruct (String.eqb_spec k "class_") as [->|]; [exfalso; apply P; auto 10|reflexivity].
Qed.
Definition stored (c : cfg) (k : string) (v : option val) : option val :=
  match v with
  | None => None
  | Some x => match allowed k x with
              | Some false => None
              | _ => match convert_value c k x with Ok VNone => None | Ok y => Some y | Err _ => None end
              end
  end.
Lemma put_kw_other : forall c kw d k0 v d' k, put_kw c [] true kw d k0 v = Ok d' -> convert_key k0 <> k -> fget d' k = fget d k.
Proof.
  intros c kw d k0 v d' k H N; unfold put_kw in H; cbn [memb existsb] in H.
  assert (Nn : forall x, fget (not_none d (convert_key k0) x) k = fget d k).
  { intros x; rewrite not_none_get; destruct (String.eqb_spec k (convert_key k0)); [congruence|reflexivity]. }
  set (stor := bindR (convert_value c (convert_key k0) v) _) in H.
  assert (S : stor = Ok d' -> fget d' k = fget d k).
  { unfold stor; destruct (convert_value c (convert_key k0) v) as [w|]; cbn [bindR]; [|discriminate].
    destruct (fget d (convert_key k0)); [|intros Z; injection Z as <-; apply Nn].
    destruct (fget kw (convert_key k0)); [|discriminate]; destruct (veq v0 v1); [intros Z; injection Z as <-; apply Nn|].
    destruct (maybe_raise c EValueError); cbn; [intros Z; injection Z as <-; reflexivity|discriminate]. }
  destruct (allowed (convert_key k0) v) as [[|]|]; [exact (S H)| |].
  - destruct (maybe_raise c EValueError); cbn in H; [injection H as <-; reflexivity|discriminate].
  - destruct (memb (convert_key k0) (c_extra c)); [exact (S H)|]; cbn [orb] in H; exact (S H).
Qed.
Lemma put_kws_key : forall c kw rest d d' k, put_kws c [] true kw rest d = Ok d' -> NoDup (map fst rest) -> plain_key k -> fget d k = None ->
  fget d' k = stored c k (fget rest k).
Proof.
  intros c kw; induction rest as [|[k0 v] r IH]; intros d d' k H N P Hd; cbn [put_kws] in H; [injection H as <-; exact Hd|].
  destruct (put_kw c [] true kw d k0 v) as [d1|x] eqn:E; cbn [bindR] in H; [|discriminate].
  cbn [map fst] in N; apply NoDup_cons_iff in N; destruct N as [N1 N2].
  assert (Hg : fget ((k0, v) :: r) k = if String.eqb k k0 then Some v else fget r k) by reflexivity; rewrite Hg; clear Hg.
  destruct (String.eqb_spec k k0) as [<-|Ne].
  - assert (Keep : forall rest d d', put_kws c [] true kw rest d = Ok d' -> ~ In k (map fst rest) -> fget d' k = fget d k).
    { clear - P; induction rest as [|[q v] r IH]; intros d d' H Nk; cbn [put_kws] in H; [injection H as <-; reflexivity|].
      destruct (put_kw c [] true kw d q v) as [d1|x] eqn:E; cbn [bindR] in H; [|discriminate].
      rewrite (IH d1 d' H) by (intros Z; apply Nk; right; exact Z); apply (put_kw_other _ _ _ _ _ _ _ E).
      intros Z; apply Nk; left; cbn; apply plain_only; assumption. }
    rewrite (Keep r d1 d' H N1); clear - E P Hd.
    unfold put_kw in E; rewrite (plain_same k P) in E; cbn [memb existsb] in E; unfold stored.
    rewrite Hd in E; assert (Ss : forall x, fget (not_none d k x) k = match x with VNone => None | _ => Some x end).
    { intros x; rewrite not_none_get, String.eqb_refl, Hd; destruct x; reflexivity. }
    destruct (allowed k v) as [[|]|].
    + destruct (convert_value c k v) as [w|]; cbn [bindR] in E; [injection E as <-; rewrite Ss; destruct w; reflexivity|discriminate].
    + destruct (maybe_raise c EValueError); cbn in E; [injection E as <-; exact Hd|discriminate].
    + cbn [orb] in E; destruct (convert_value c k v) as [w|]; cbn [bindR] in E; [|destruct (memb k (c_extra c)); discriminate].
      assert (E' : d1 = not_none d k w) by (destruct (memb k (c_extra c)); injection E as <-; reflexivity); subst d1; rewrite Ss; destruct w; reflexivity.
  - apply (IH d1 d' k H N2 P); rewrite (put_kw_other _ _ _ _ _ _ k E); [exact Hd|].
    intros Z; apply Ne; symmetry; apply plain_only; assumption.
Qed.

(** What finalising makes of its fields: if no exception is among them, success and the fields that are not derived stay. *)
Lemma no_exception_kept : forall c w kw f, handle_fields c w true [] kw = Ok f -> NoDup (map fst kw) ->
  fget kw "exception" = None -> fget kw "e" = None ->
  (forall k, plain_key k -> ~ In k ["auto"; "service_name"; "level"; "time"; "function"; "module"] -> fget f k = stored c k (fget kw k)) /\
  exists l, fget f "level" = Some (VInt l) /\
    match stored c "level" (fget kw "level") with
    | Some v => v = VInt l
    | None => l = match stored c "success" (fget kw "success") with Some v => if truthy v then c_default c else c_error c | None => c_default c end
    end.
Proof.
  intros c w kw f H N E1 E2.
  assert (Pe : forall p, prepare c [] true [] kw = Ok p -> fget p "exception" = None).
  { intros p Hp; unfold prepare, put_args in Hp; cbn [bindR] in Hp.
    assert (K : forall rest d d', put_kws c [] true kw rest d = Ok d' -> fget rest "exception" = None -> fget rest "e" = None -> fget d' "exception" = fget d "exception").
    { induction rest as [|[q v] r IH]; intros d d' Hq R1 R2; cbn [put_kws] in Hq; [injection Hq as <-; reflexivity|].
      destruct (put_kw c [] true kw d q v) as [d1|x] eqn:E; cbn [bindR] in Hq; [|discriminate].
      assert (G : forall k, fget ((q, v) :: r) k = if String.eqb k q then Some v else fget r k) by reflexivity; rewrite G in R1, R2.
      destruct (String.eqb_spec "exception" q) as [|Q1]; [discriminate|]; destruct (String.eqb_spec "e" q) as [|Q2]; [discriminate|].
      rewrite (IH d1 d' Hq R1 R2); apply (put_kw_other _ _ _ _ _ _ _ E); unfold convert_key.
      destruct (String.eqb q "vars"); [discriminate|]; destruct (String.eqb q "locals"); [discriminate|].
      destruct (String.eqb_spec q "e"); [congruence|]; destruct (String.eqb q "class_"); [discriminate|congruence]. }
    rewrite (K kw [] p Hp E1 E2); reflexivity. }
  assert (H0 := H); unfold handle_fields in H0; destruct (prepare c [] true [] kw) as [p|] eqn:Ep; cbn [bindR] in H0; [|discriminate].
  specialize (Pe p eq_refl).
  assert (Pk : forall k, plain_key k -> fget p k = stored c k (fget kw k)).
  { intros k Hk; unfold prepare, put_args in Ep; cbn [bindR] in Ep; apply (put_kws_key c kw kw [] p k Ep N Hk eq_refl). }
  set (f2 := match c_service c with Some s => fset (fset p "auto" (VBool false)) "service_name" (VStr s) | None => fset p "auto" (VBool false) end) in *.
  assert (F2 : forall k, k <> "auto" -> k <> "service_name" -> fget f2 k = fget p k).
  { intros k K1 K2; unfold f2; destruct (c_service c); repeat rewrite fset_other by assumption; reflexivity. }
  unfold extract_exception in H0; rewrite F2, Pe in H0 by discriminate; cbn [bindR] in H0; injection H0 as H0.
  split.
  - intros k Hk Nk; cbn [In] in Nk; rewrite <- (Pk k Hk), <- H0.
    rewrite <- (F2 k) by (intros ->; apply Nk; auto 10).
    assert (Fu : fget (extract_function f2) k = fget f2 k).
    { unfold extract_function; destruct (fget f2 "function") as [[]|]; try reflexivity;
      destruct module; repeat rewrite fset_other by (intros ->; apply Nk; auto 10); reflexivity. }
    rewrite <- Fu; unfold defaults.
    destruct (fget (extract_function f2) "level"); [|destruct (fget (fset _ "level" _) "time"); repeat rewrite fset_other by (intros ->; apply Nk; auto 10); reflexivity].
    destruct (fget (extract_function f2) "time"); repeat rewrite fset_other by (intros ->; apply Nk; auto 10); reflexivity.
  - destruct (C35_level_and_threshold c w true false [] kw f H) as [p' [l [Ep' [Lr [Lf _]]]]].
    rewrite Ep in Ep'; injection Ep' as <-; exists l; split; [exact Lf|]; unfold level_rule in Lr.
    rewrite Pk in Lr by (try unfold plain_key; cbn; intuition discriminate); destruct (stored c "level" (fget kw "level")); [exact Lr|].
    rewrite Pe in Lr; cbn [orb] in Lr; unfold succeeded in Lr; rewrite Pk in Lr by (try unfold plain_key; cbn; intuition discriminate).
    destruct (stored c "success" (fget kw "success")) as [v|]; [destruct (truthy v); exact Lr|exact Lr].
Qed.

(** C32: leaving a block.  If finalising does not fail: a record is written iff its level reaches the threshold and logging
    is on; it says success=True and nothing about an exception, or success=False with the class, the text and the traceback
    of the exception; what the user said about success is overwritten; and the exception leaves the block iff it is not
    suppressed.  If finalising fails, another exception leaves the block and nothing is written. *)
Theorem C32_exit : forall W s i o s' o', hier_ok (hi W) -> leave W s i o = (s', o') ->
  let x := get_fin s i in NoDup (map fst (f_data x)) -> fget (f_data x) "exception" = None -> fget (f_data x) "e" = None ->
  (exists z, o' = ORaise (mkE (2 * nexte s + 1) (icls W z) true) /\ tr s' = tr s /\
     ((exists e, o = ORaise e /\ estr (ce W) e = Err z) \/ exists kw, handle (cf s) (ce W) true (is_off s) [] kw = Err z)) \/
  exists f l,
    tr s' = tr s ++ (if (c_level (cf s) <=? l)%Z && negb (is_off s) then [ERec (KBlock i) f] else []) /\
    fget f "level" = Some (VInt l) /\ fget f "time_of_work" = stored (cf s) "time_of_work" (Some (dur W)) /\
    match o with
    | ORet v => o' = ORet v /\ fget f "success" = Some (VBool true) /\
        (fget (f_data x) "level" = None -> l = c_default (cf s))
    | ORaise e => (swallows W (cf s) x e /\ o' = ORet VNone \/ ~ swallows W (cf s) x e /\ o' = ORaise e) /\
        fget f "success" = Some (VBool false) /\ fget f "exception_type" = Some (VStr (cname (ce W) (e_cls e))) /\
        (exists t, estr (ce W) e = Ok t /\ fget f "exception_message" = Some (VStr t)) /\ fget f "traceback" = Some (VStr (tbk (ce W))) /\
        (fget (f_data x) "level" = None -> l = c_error (cf s))
    end /\
    (forall v, fget (f_data x) "level" = Some v -> allowed "level" v = Some true -> level_number (cf s) v l) /\
    (forall k, plain_key k -> ~ In k ["auto"; "service_name"; "level"; "time"; "function"; "module"; "success"; "time_of_work"; "exception_type"; "exception_message"; "traceback"] ->
       fget f k = stored (cf s) k (fget (f_data x) k)).
Proof.
  intros W s i o s' o' Hh H x N E1 E2; unfold leave in H; fold x in H; cbv zeta in H.
  set (d0 := match o with ORet _ => Ok (fset (f_data x) "success" (VBool true)) | ORaise e => _ end) in H.
  destruct d0 as [d|z] eqn:Ed.
  2: { left; exists z; cbn in H; injection H as <- <-; split; [reflexivity|split; [reflexivity|left]].
       unfold d0 in Ed; destruct o as [v|e]; [discriminate|]; exists e; split; [reflexivity|].
       destruct (estr (ce W) e); cbn [bindR] in Ed; [discriminate|injection Ed as ->; reflexivity]. }
  set (d1 := fset d "time_of_work" (dur W)) in H.
  set (s1 := put_fin s i _) in H.
  unfold manual in H; change (cf s1) with (cf s) in H; change (is_off s1) with (is_off s) in H.
  destruct (handle (cf s) (ce W) true (is_off s) [] d1) as [r|z] eqn:Eh.
  2: { left; exists z; cbn in H; injection H as <- <-; split; [reflexivity|split; [reflexivity|right; exists d1; exact Eh]]. }
  right.
  assert (Nd : NoDup (map fst d1)).
  { unfold d1; apply nodup_fset; unfold d0 in Ed; destruct o as [v|e]; [injection Ed as <-; apply nodup_fset; exact N|].
    destruct (estr (ce W) e); cbn [bindR] in Ed; [|discriminate]; injection Ed as <-; repeat apply nodup_fset; exact N. }
  assert (K : forall k, ~ In k ["success"; "time_of_work"; "exception_type"; "exception_message"; "traceback"] -> fget d1 k = fget (f_data x) k).
  { intros k Nk; cbn [In] in Nk; unfold d1; rewrite fset_other by (intros ->; apply Nk; auto 10).
    unfold d0 in Ed; destruct o as [v|e]; [injection Ed as <-; apply fset_other; intros ->; apply Nk; auto 10|].
    destruct (estr (ce W) e); cbn [bindR] in Ed; [|discriminate]; injection Ed as <-.
    repeat rewrite fset_other by (intros ->; apply Nk; auto 10); reflexivity. }
  assert (Hf : exists f, handle_fields (cf s) (ce W) true [] d1 = Ok f).
  { unfold handle in Eh; destruct (handle_fields (cf s) (ce W) true [] d1) as [f|]; [eauto|discriminate]. }
  destruct Hf as [f Hf].
  destruct (no_exception_kept _ _ _ _ Hf Nd) as [Kf [l [Ll Lr]]]; [rewrite K by (try unfold plain_key; cbn; intuition discriminate); assumption|rewrite K by (try unfold plain_key; cbn; intuition discriminate); assumption|].
  destruct (C35_level_and_threshold _ _ true (is_off s) _ _ _ Hf) as [p [l' [_ [_ [Ll' Eh']]]]].
  rewrite Ll in Ll'; injection Ll' as <-; rewrite Eh in Eh'; injection Eh' as Er.
  assert (T : exists s2, cf s2 = cf s /\ tr s2 = tr s ++ (if (c_level (cf s) <=? l)%Z && negb (is_off s) then [ERec (KBlock i) f] else []) /\
     match o with ORet _ => (s2, o) | ORaise e => if f_all x then (s2, ORet VNone)
        else if match f_supp x with [] => c_supp (cf s2) | l => is_suppressed (hi W) (cf s2) e l end then (s2, ORet VNone) else (s2, o) end = (s', o')).
  { destruct ((c_level (cf s) <=? l)%Z && negb (is_off s)); subst r.
    - exists (emit s1 (ERec (KBlock i) f)); split; [reflexivity|split; [reflexivity|exact H]].
    - exists s1; split; [reflexivity|split; [rewrite app_nil_r; reflexivity|exact H]]. }
  clear H; destruct T as [s2 [Cs2 [T2 H]]].
  exists f, l; split; [|split; [exact Ll|split]].
  - destruct o as [v|e]; [injection H as <- <-; exact T2|]; destruct (f_all x); [injection H as <- <-; exact T2|].
    match type of H with (if ?b then _ else _) = _ => destruct b end; injection H as <- <-; exact T2.
  - rewrite Kf by (try unfold plain_key; cbn; intuition discriminate); unfold d1; rewrite fset_same; reflexivity.
  - assert (Ls : forall b, fget d1 "success" = Some (VBool b) -> fget f "success" = Some (VBool b) /\ (fget (f_data x) "level" = None -> l = if b then c_default (cf s) else c_error (cf s))).
    { intros b Hb; rewrite Kf by (try unfold plain_key; cbn; intuition discriminate); rewrite Hb; split; [reflexivity|].
      intros Hl; rewrite K in Lr by (try unfold plain_key; cbn; intuition discriminate); rewrite Hl in Lr; cbn [stored] in Lr; rewrite Hb in Lr; destruct b; exact Lr. }
    split; [|split].
    + unfold d0 in Ed; destruct o as [v|e].
      * injection H as <- <-; injection Ed as <-; split; [reflexivity|]; apply (Ls true); unfold d1; rewrite fset_other, fset_same by discriminate; reflexivity.
      * destruct (estr (ce W) e) as [t|] eqn:Es; cbn [bindR] in Ed; [|discriminate]; injection Ed as <-.
        assert (Sw : swallows W (cf s) x e /\ o' = ORet VNone \/ ~ swallows W (cf s) x e /\ o' = ORaise e).
        { unfold swallows; rewrite Cs2 in H; destruct (f_all x); [injection H as <- <-; left; auto|].
          destruct (f_supp x) as [|d r0].
          - destruct (c_supp (cf s)); injection H as <- <-; [left; auto|right; split; [|reflexivity]]; intros [Z|[[Z _]|[_ Z]]]; [discriminate|apply Z; reflexivity|discriminate].
          - pose proof (is_suppressed_spec (hi W) (cf s) e (d :: r0) Hh) as Sp.
            destruct (is_suppressed (hi W) (cf s) e (d :: r0)); injection H as <- <-.
            + left; split; [right; left; split; [discriminate|apply Sp; reflexivity]|reflexivity].
            + right; split; [|reflexivity]; intros [Z|[[_ Z]|[Z _]]]; [discriminate|apply Sp in Z; discriminate|discriminate]. }
        split; [exact Sw|].
        destruct (Ls false) as [L1 L2]; [unfold d1; rewrite fset_other, fset_other, fset_same by discriminate; reflexivity|].
        split; [exact L1|split; [|split; [exists t; split; [reflexivity|]|split; [|exact L2]]]].
        -- rewrite Kf by (try unfold plain_key; cbn; intuition discriminate); unfold d1; repeat rewrite fset_other by discriminate; rewrite fset_same; reflexivity.
        -- rewrite Kf by (try unfold plain_key; cbn; intuition discriminate); unfold d1; repeat rewrite fset_other by discriminate; rewrite fset_same; reflexivity.
        -- rewrite Kf by (try unfold plain_key; cbn; intuition discriminate); unfold d1; repeat rewrite fset_other by discriminate; rewrite fset_same; reflexivity.
    + intros v Hv Al; rewrite K in Lr by (try unfold plain_key; cbn; intuition discriminate); rewrite Hv in Lr; cbn [stored] in Lr; rewrite Al in Lr.
      unfold convert_value in Lr; change (String.eqb "level" "level") with true in Lr; cbv iota in Lr.
      destruct (level_get (cf s) v) as [z|] eqn:El; cbn [bindR] in Lr; [injection Lr as <-; apply level_get_spec; exact El|].
      exfalso; unfold handle_fields in Hf; destruct (C34_unknown_level_raises (cf s) [] true [] d1 v) as [ee He].
      * assert (G : fget d1 "level" = Some v) by (rewrite K by (try unfold plain_key; cbn; intuition discriminate); exact Hv).
        unfold fget in G; apply (dget_In String.eqb string_eqb_spec) in G; exact G.
      * intros [].
      * pose proof (allowed_spec "level" v) as As; rewrite Al in As; apply As; discriminate.
      * intros y Cy; apply convert_spec in Cy; unfold convert_value in Cy; change (String.eqb "level" "level") with true in Cy; cbv iota in Cy; rewrite El in Cy; discriminate.
      * rewrite He in Hf; discriminate.
    + intros k Pk Nk; cbn [In] in Nk; rewrite Kf by (try exact Pk; cbn [In]; intuition discriminate); rewrite K by (cbn [In]; intuition discriminate); reflexivity.
Qed.

(** C32: finalising does not fail in silent mode, if a level that was given exists, no two arguments mean the same field
    and str() of the exception does not fail. *)
Theorem C32_exit_succeeds : forall c w off kw, c_silent c = true -> distinct [] kw ->
  (forall v, In ("level", v) kw -> right_type "level" v -> exists l, level_number c v l) ->
  (forall v, In ("exception", v) kw \/ In ("e", v) kw -> is_str v = true) -> is_ok (handle c w true off [] kw) = true.
Proof.
  intros c w off kw Si D Lv Ex.
  destruct (C34_exactly_the_expected_fields c [] true [] kw D (or_introl Si)) as [p [Ep Xp]].
  { intros k0 v k Hin Ck Ac.
    destruct (string_dec k "level") as [->|Nl].
    - assert (k0 = "level") by (apply plain_only; [try unfold plain_key; cbn; intuition discriminate|apply key_spec; exact Ck]); subst k0.
      destruct (Lv v Hin) as [l L]; [destruct Ac as [_ [[_ R]|[Z _]]]; [exact R|exfalso; apply Z; cbn; auto 10]|].
      exists (VInt l); inversion L; subst; constructor; assumption.
    - destruct (string_dec k "class") as [->|Nc]; [|exists v; constructor; assumption].
      destruct v as [| | | | |d n m| |]; try (eexists; apply cv_class_other; intros; discriminate); exists (VStr n); constructor. }
  assert (Hf : exists f, handle_fields c w true [] kw = Ok f).
  { unfold handle_fields; rewrite Ep; cbn [bindR].
    set (f2 := match c_service c with Some s => fset (fset p "auto" (VBool false)) "service_name" (VStr s) | None => fset p "auto" (VBool false) end).
    assert (F2 : fget f2 "exception" = fget p "exception") by (unfold f2; destruct (c_service c); repeat rewrite fset_other by discriminate; reflexivity).
    unfold extract_exception; rewrite F2; destruct (fget p "exception") as [x|] eqn:Ee; [|eexists; reflexivity].
    apply Xp in Ee; destruct Ee as [[Z _]|[k0 [v [Hin [Ck [_ [Cv _]]]]]]]; [discriminate|].
    assert (v = x) by (inversion Cv; subst; congruence); subst v.
    assert (Sx : is_str x = true).
    { apply Ex; unfold canonical in Ck; destruct Ck as [Ck|[Ck _]]; [inversion Ck; subst; right; exact Hin|subst k0; left; exact Hin]. }
    destruct x; try discriminate; cbn [bindR]; eexists; reflexivity. }
  destruct Hf as [f Hf]; destruct (C35_level_and_threshold c w true off [] kw f Hf) as [p' [l [_ [_ [_ Hh]]]]]; rewrite Hh; reflexivity.
Qed.

(** * C33: dotted levels *)

(** C33: log.name(..., level=x) uses name; the other arguments are untouched; every name that is not a method of the router
    is accepted. *)
Theorem C33_dotted_level_wins : forall name kw, NoDup (map fst kw) ->
  fget (dotted_kw name kw) "level" = Some (VStr name) /\
  (forall k, k <> "level" -> fget (dotted_kw name kw) k = fget kw k) /\ NoDup (map fst (dotted_kw name kw)).
Proof.
  intros name kw N; unfold dotted_kw; cbn [update]; split; [apply fset_same|split; [intros k Hk; apply fset_other; exact Hk|apply nodup_fset; exact N]].
Qed.
Theorem C33_any_name_is_accepted : forall name, router_attr name = Some name <->
  ~ In name ["_wrap"; "message"; "suppress"; "__call__"; "__getattribute__"; "__neg__"; "__enter__"; "__exit__"].
Proof.
  intros name; unfold router_attr; pose proof (memb_In name router_own) as M; pose proof (memb_not name router_own) as M2.
  destruct (memb name router_own); split; intros H; try discriminate; try reflexivity.
  - exfalso; apply H; apply M; reflexivity.
  - apply M2; reflexivity.
Qed.

(** C33: a manual record with a dotted level has that level; with an unregistered name nothing is written and nothing is
    raised, in either mode. *)
Definition dotted_call (name : string) (args : list val) (kw : fields) (k : prog) : prog :=
  New args (dotted_kw name kw) (fun r => match r with inl i => Drop i k | inr e => Done (ORaise e) end).
Lemma new_drop : forall W args kw k s d, convert_arguments (cf s) args kw = Ok d ->
  exists s1, tr s1 = tr s /\ cf s1 = cf s /\ unl s1 = unl s /\ exec W (New args kw (fun r => match r with inl i => Drop i k | inr e => Done (ORaise e) end)) s =
    exec W k (fst (manual W KManual args kw s1)).
Proof.
  intros W args kw k s d E; cbn [exec]; unfold new_fin; rewrite E; cbn [bindR exec].
  unfold get_fin at 1; cbn [fins set_fins]; rewrite app_nth2, Nat.sub_diag by lia; cbn [nth f_used].
  unfold get_fin; cbn [fins set_fins]; rewrite app_nth2, Nat.sub_diag by lia; cbn [nth f_args f_kw].
  eexists; split; [|split; [|split; [|reflexivity]]]; reflexivity.
Qed.
Theorem C33_manual_record : forall W name args kw s s' o d, NoDup (map fst kw) -> convert_arguments (cf s) args (dotted_kw name kw) = Ok d ->
  exec W (dotted_call name args kw (Done (ORet VNone))) s = (s', o) ->
  o = ORet VNone /\
  (tr s' = tr s \/ exists f z, tr s' = tr s ++ [ERec KManual f] /\ dget String.eqb (c_levels (cf s)) name = Some z /\ fget f "level" = Some (VInt z) /\ (c_level (cf s) <= z)%Z).
Proof.
  intros W name args kw s s' o d N E H; unfold dotted_call in H.
  destruct (new_drop W args (dotted_kw name kw) (Done (ORet VNone)) s d E) as [s1 [T1 [C1 [U1 X]]]]; rewrite X in H; clear X.
  cbn [exec] in H; injection H as <- <-; split; [reflexivity|].
  unfold manual; destruct (handle (cf s1) (ce W) true (is_off s1) args (dotted_kw name kw)) as [[f|]|z] eqn:Eh; cbn [fst]; try (left; exact T1).
  right; assert (Eh0 := Eh); unfold handle in Eh0; destruct (handle_fields (cf s1) (ce W) true args (dotted_kw name kw)) as [f'|] eqn:Hf; cbn [bindR] in Eh0; [|discriminate].
  destruct (C35_level_and_threshold _ _ _ (is_off s1) _ _ _ Hf) as [p [l [Ep [Lr [Lf Hh]]]]].
  rewrite Eh in Hh; destruct ((c_level (cf s1) <=? l)%Z && negb (is_off s1)) eqn:B; [injection Hh as <-|discriminate].
  apply Bool.andb_true_iff in B; destruct B as [B _]; apply Z.leb_le in B.
  destruct (C33_dotted_level_wins name kw N) as [Lv [_ Nd]].
  assert (Pl : fget p "level" = stored (cf s1) "level" (Some (VStr name))).
  { rewrite <- Lv; unfold prepare in Ep; destruct (put_args (cf s1) args) as [d0|] eqn:Ea; cbn [bindR] in Ep; [|discriminate].
    apply (put_kws_key _ _ _ _ _ "level" Ep Nd); [try unfold plain_key; cbn; intuition discriminate|].
    unfold put_args in Ea; destruct (match args with _ :: _ :: _ => _ | _ => _ end); cbn [bindR] in Ea; [|discriminate]; injection Ea as <-; destruct args; reflexivity. }
  cbn [stored allowed convert_value level_get String.eqb Ascii.eqb Bool.eqb is_str orb] in Pl.
  destruct (dget String.eqb (c_levels (cf s1)) name) as [z|] eqn:Ez; cbn [bindR] in Pl.
  - exists f, z; unfold level_rule in Lr; rewrite Pl in Lr; injection Lr as ->; rewrite <- C1; split; [cbn; rewrite T1; reflexivity|auto].
  - exfalso; destruct (C34_unknown_level_raises (cf s1) [] true args (dotted_kw name kw) (VStr name)) as [e He].
    + unfold fget in Lv; apply (dget_In String.eqb string_eqb_spec) in Lv; exact Lv.
    + intros [].
    + constructor; cbn; auto 10.
    + intros y Cy; inversion Cy; subst; congruence.
    + congruence.
Qed.

(** C33: "with log.name:" with an unregistered name raises at the exit and writes nothing. *)
Theorem C33_with_unregistered_raises : forall W s i o name, fget (f_data (get_fin s i)) "level" = Some (VStr name) ->
  dget String.eqb (c_levels (cf s)) name = None ->
  exists z s', leave W s i o = (s', ORaise (mkE (2 * nexte s + 1) (icls W z) true)) /\ tr s' = tr s.
Proof.
  intros W s i o name Lv Un; unfold leave; set (x := get_fin s i) in *.
  match goal with |- context [match ?dd with Ok _ => _ | Err _ => _ end] => destruct dd as [d|z] eqn:Ed end.
  2: { exists z; eexists; split; [reflexivity|reflexivity]. }
  cbv zeta; set (d1 := fset d "time_of_work" (dur W)).
  assert (Ld : fget d1 "level" = Some (VStr name)).
  { unfold d1; rewrite fset_other by discriminate; destruct o as [v|e]; [injection Ed as <-; rewrite fset_other by discriminate; exact Lv|].
    destruct (estr (ce W) e); cbn [bindR] in Ed; [|discriminate]; injection Ed as <-; repeat rewrite fset_other by discriminate; exact Lv. }
  unfold manual; cbn [cf is_off put_fin set_fins].
  assert (Hh : exists z, handle (cf s) (ce W) true (is_off s) [] d1 = Err z).
  { destruct (C34_unknown_level_raises (cf s) [] true [] d1 (VStr name)) as [e He].
    - unfold fget in Ld; apply (dget_In String.eqb string_eqb_spec) in Ld; exact Ld.
    - intros [].
    - constructor; cbn; auto 10.
    - intros y Cy; inversion Cy; subst; congruence.
    - exists e; unfold handle, handle_fields; rewrite He; reflexivity. }
  destruct Hh as [z Hz]; exists z.
  match goal with |- context [handle ?c ?w true ?b [] d1] => change (handle c w true b [] d1) with (handle (cf s) (ce W) true (is_off s) [] d1) end.
  rewrite Hz; eexists; split; reflexivity.
Qed.

(** * C44: the level of errors *)

(** C44: the level of errors is the explicit one if it is usable; otherwise the greatest of default_level,
    default_error_level and the usable ordinary level; there is exactly one such number. *)
Theorem C44_resolution : forall c el l z, errors_level c el l = z <-> error_level c el l z.
Proof. intros c el l z; split; [intros <-; apply errors_level_spec|intros H; exact (error_level_fun c el l _ _ (errors_level_spec c el l) H)]. Qed.
Theorem C44_never_below : forall c el l, ~ usable c el ->
  (c_default c <= errors_level c el l)%Z /\ (c_error c <= errors_level c el l)%Z /\ forall v z, l = Some v -> level_number c v z -> (z <= errors_level c el l)%Z.
Proof.
  intros c el l U; destruct (errors_level_spec c el l) as [v z E L|z _ M _]; [exfalso; apply U; exists v, z; auto|].
  split; [apply M; auto|split; [apply M; auto|intros v y Ev Ly; apply M; eauto]].
Qed.

(** * Examples and refutations *)

(** C29 *)
Example ex_sub : snd (after W0 (mkPar None None None false [2] []) [] [] 0 (ORaise (mkE 0 3 true)) (start c0)) = ORet VNone.
Proof. reflexivity. Qed.
Example ex_base_not : snd (after W0 (mkPar None None None true [] []) [] [] 0 (ORaise (mkE 0 4 false)) (start c0)) = ORaise (mkE 0 4 false).
Proof. reflexivity. Qed.
Example ex_suppress_loud : suppress h0 1 c0 false [] [VClass 2 "V" None; VClass 4 "K" None] = Err EValueError /\ suppress h0 1 c0s false [] [VClass 2 "V" None; VClass 4 "K" None] = Ok (false, [2]).
Proof. split; reflexivity. Qed.
(** "BaseExceptions outside Exception are never swallowed" fails for with-blocks. *)
Theorem C29_never_base_exceptions_refuted : exists W body c e, e_exc e = false /\
  snd (exec W (WithR [] (Some []) (fun _ => Done (ORaise e)) Done) (start c)) = ORet VNone /\
  snd (exec W body (start c)) = ORaise e /\ body = Logged (mkPar None None None true [] []) [] [] (Done (ORaise e)) Done.
Proof. exists W0; eexists; exists c0, (mkE 0 4 false); split; [reflexivity|split; [reflexivity|split; [|reflexivity]; reflexivity]]. Qed.

(** A call inside of a block: the argument that is not an exception class makes it raise; nothing is added. *)
Example ex_suppress_call : snd (exec W0 (WithR [] None (fun i => Suppress i [VClass 2 "V" None] (fun _ => Done (ORaise (mkE 0 2 true)))) Done) (start c0)) = ORet VNone /\
  snd (exec W0 (WithR [] None (fun i => Suppress i [VClass 2 "V" None; VInt 3] (fun _ => Done (ORaise (mkE 0 2 true)))) Done) (start c0)) = ORaise (mkE 0 2 true).
Proof. split; vm_compute; reflexivity. Qed.

(** C31 *)
Definition blk (kw : fields) (b k : prog) : prog := WithR kw None (fun _ => b) (skip k).
Example ex_nested : recs (fst (exec W0 (blk [] (blk [] (blk [] (Done (ORet VNone)) (Done (ORet VNone))) (blk [] (Done (ORet VNone)) (Done (ORet VNone)))) (Done (ORet VNone))) (start c0))) = [KBlock 2; KBlock 1; KBlock 3; KBlock 0].
Proof. reflexivity. Qed.
(** If "with log.suppress(x)" fails on its argument inside a block, the outer block finalises the object of the failed one:
    its own record is lost, and the object stays on the stack for good. *)
Theorem C31_any_nesting_refuted : exists W q c, recs (fst (exec W q (start c))) = [KBlock 1] /\ rstack (fst (exec W q (start c))) = Some [0] /\
  q = WithR [("message", VStr "outer")] None (fun _ => WithR [] (Some [VInt 3]) (fun _ => Done (ORet VNone)) (skip (Done (ORet VNone)))) (skip (Done (ORet VNone))).
Proof. exists W0; eexists; exists c0; split; [|split; [|reflexivity]]; reflexivity. Qed.

(** C32: what the user says about success is overwritten; a wrong field makes another exception leave the block in loud mode. *)
Theorem C32_success_can_be_overridden_refuted : exists W q c f, tr (fst (exec W q (start c))) = [ERec (KBlock 0) f] /\ fget f "success" = Some (VBool true) /\
  q = WithR [("success", VBool false)] None (fun _ => Done (ORet VNone)) Done.
Proof. exists W0; eexists; exists c0; eexists; split; [|split; [|reflexivity]]; reflexivity. Qed.
Theorem C32_own_exception_leaves_refuted : exists W q c e e', snd (exec W q (start c)) = ORaise e' /\ e_id e <> e_id e' /\
  q = WithR [("success", VInt 3); ("message", VInt 4)] None (fun _ => Done (ORaise e)) Done /\ recs (fst (exec W q (start c))) = [].
Proof. exists W0; eexists; exists c0, e0; eexists; split; [|split; [|split; [reflexivity|]]]; [reflexivity|discriminate|reflexivity]. Qed.
Example ex_block_fields : exists f, tr (fst (exec W0 (WithR [("message", VStr "m")] (Some [VClass 2 "V" None]) (fun _ => Done (ORaise (mkE 0 3 true))) Done) (start c0))) = [ERec (KBlock 0) f] /\
  fget f "message" = Some (VStr "m") /\ fget f "success" = Some (VBool false) /\ fget f "exception_message" = Some (VStr "text") /\
  snd (exec W0 (WithR [("message", VStr "m")] (Some [VClass 2 "V" None]) (fun _ => Done (ORaise (mkE 0 3 true))) Done) (start c0)) = ORet VNone.
Proof. eexists; split; [reflexivity|repeat split]. Qed.

(** C33: the docstring of the router says that the argument wins, and that only registered names are levels. *)
Theorem C33_argument_wins_refuted : exists W q c f, tr (fst (exec W q (start c))) = [ERec KManual f] /\ fget f "level" = Some (VInt 2) /\
  q = dotted_call "info" [VStr "m"] [("level", VInt 7)] (Done (ORet VNone)).
Proof. exists W0; eexists; exists c0; eexists; split; [|split; [|reflexivity]]; reflexivity. Qed.
Theorem C33_only_registered_refuted : exists W q c, tr (fst (exec W q (start c))) = [] /\ snd (exec W q (start c)) = ORet VNone /\ c_silent c = false /\
  dget String.eqb (c_levels c) "infoo" = None /\ router_attr "infoo" = Some "infoo" /\ q = dotted_call "infoo" [VStr "m"] [] (Done (ORet VNone)).
Proof. exists W0; eexists; exists c0; split; [|split; [|split; [reflexivity|split; [reflexivity|split; reflexivity]]]]; reflexivity. Qed.
Example ex_with_bad : snd (exec W0 (WithR [("level", VStr "infoo")] None (fun _ => Done (ORet VNone)) Done) (start c0)) = ORaise (mkE 1 1 true).
Proof. reflexivity. Qed.

(** C44 *)
Example ex_error_level : errors_level c0 (Some (VStr "nope")) (Some (VInt 9)) = 9%Z /\ errors_level c0 (Some (VInt 0)) (Some (VInt 9)) = 0%Z /\ errors_level c0 None (Some (VInt (-3))) = 5%Z.
Proof. vm_compute; auto. Qed.

Print Assumptions C29_decorator.
Print Assumptions C29_block.
Print Assumptions C29_suppress_arguments_silent.
Print Assumptions C29_suppress_arguments_loud.
Print Assumptions C29_suppress_call.
Print Assumptions C31_exit_finalises_own_block.
Print Assumptions C31_one_record_per_block.
Print Assumptions C32_exit.
Print Assumptions C32_exit_succeeds.
Print Assumptions C33_manual_record.
Print Assumptions C33_with_unregistered_raises.
Print Assumptions C44_resolution.
