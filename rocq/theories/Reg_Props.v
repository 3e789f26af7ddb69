(** C49 and the registry half of C05.  [reached ops] is the registry after an arbitrary program of
    add_handlers / delete_handlers / get_handlers calls; what is registered is read back with [handler_at]. *)
From Verif Require Import Base Tree_Model Tree_Spec Tree_Heap Tree_Ops Tree_Project Tree_Proofs Reg_Model Reg_Proofs.

Section Props.
  Variable isident : string -> bool.
  Variable is_handler : nat -> bool.
  Variable pony : nat -> string.
  Definition reached (ops : list rop) : rstate := fold_left (reg_step isident is_handler pony) ops rinit.
  Notation at_ := (handler_at isident).

  (** Two names are the same name (textually equal, or spelled for the same path). *)
  Definition same_name (k k' : pykey) : Prop := exists p, denotes isident k p /\ denotes isident k' p.

  Theorem C49_add_never_replaces : forall ops args kwargs s' r,
    add_handlers isident is_handler pony (reached ops) args kwargs = (s', r) ->
    forall k v, at_ (reached ops) k = Ok (Some v) -> at_ s' k = Ok (Some v).
  Proof.
    intros ops args kw s' r E k v Hk; destruct (reach_RI isident is_handler pony ops) as [m R]; fold (reached ops) in R.
    destruct (add_handlers_grows _ _ _ _ _ _ _ _ _ R E) as (m' & R' & G).
    rewrite (at_spec isident _ _ k R) in Hk; rewrite (at_spec isident _ _ k R').
    destruct (parse isident k) as [p|]; [|discriminate]; injection Hk as Hk; rewrite (G _ _ Hk); reflexivity.
  Qed.

  (** One named handler: success stores it under a name that was free and touches no other name; failure
      changes nothing; a name already holding a handler is refused with NameError. *)
  Theorem C49_add_named : forall ops n h s' r,
    add_handlers isident is_handler pony (reached ops) [] [(n, h)] = (s', r) ->
    (r = Ok tt /\ at_ (reached ops) (KStr n) = Ok None /\ at_ s' (KStr n) = Ok h /\
       forall k, ~ same_name k (KStr n) -> at_ s' k = at_ (reached ops) k) \/
    (exists e, r = Err e /\ s' = reached ops).
  Proof.
    intros ops n h s' r E; destruct (reach_RI isident is_handler pony ops) as [m R]; fold (reached ops) in R.
    unfold add_handlers in E; cbn [add_args map fst snd set_handlers] in E.
    destruct (set_handler isident is_handler (reached ops) (KStr n) h) as [s1 r1] eqn:E1.
    destruct (set_handler_spec _ _ _ _ _ _ _ _ R E1) as [(p & v & -> & -> & Hi & Ep & Hn & R')|(-> & e & -> & _)].
    - injection E as <- <-; left; rewrite !(at_spec isident _ _ _ R), Ep, Hn; split; [reflexivity|]; split; [reflexivity|].
      rewrite (at_spec isident _ _ _ R'), Ep, (dget_dset_same path_eqb path_eqb_spec); split; [reflexivity|].
      intros k Hk; rewrite (at_spec isident _ _ _ R'), (at_spec isident _ _ _ R).
      destruct (parse isident k) as [q|] eqn:Eq; [|reflexivity].
      rewrite (dget_dset_other path_eqb path_eqb_spec); [reflexivity|]; intros <-.
      apply Hk; exists p; split; apply parse_denotes; assumption.
    - injection E as <- <-; right; exists e; auto.
  Qed.

  Theorem C49_duplicate_name_refused : forall ops n h v,
    at_ (reached ops) (KStr n) = Ok (Some v) ->
    add_handlers isident is_handler pony (reached ops) [] [(n, h)] = (reached ops, Err ENameError).
  Proof.
    intros ops n h v Hk; destruct (reach_RI isident is_handler pony ops) as [m R]; fold (reached ops) in R.
    rewrite (at_spec isident _ _ _ R) in Hk.
    destruct (parse isident (KStr n)) as [p|] eqn:Ep; [|discriminate]; injection Hk as Hk.
    unfold add_handlers; cbn [add_args map fst snd set_handlers].
    destruct R as (Rl & _); unfold set_handler; rewrite (contains_value isident _ m (KStr n) p Rl Ep); [reflexivity|].
    exists []; rewrite app_nil_r, Hk; discriminate.
  Qed.

  (** Positional handlers: an object that is already at the top level is refused and nothing changes. *)
  Theorem C49_duplicate_object_refused : forall ops n v,
    at_ (reached ops) (KStr n) = Ok (Some v) -> denotes isident (KStr n) [n] ->
    add_handlers isident is_handler pony (reached ops) [AObj (Some v)] [] = (reached ops, Err EValueError).
  Proof.
    intros ops n v Hk Hd; destruct (reach_RI isident is_handler pony ops) as [m R]; fold (reached ops) in R.
    apply parse_denotes in Hd; rewrite (at_spec isident _ _ _ R), Hd in Hk; injection Hk as Hk.
    destruct (top_child _ _ _ _ _ R Hk) as (c & Hi & Hv).
    unfold add_handlers; cbn [add_args]; unfold add_one.
    assert (existsb (obj_eqb (Some v)) (top_values (reached ops)) = true) as ->; [|reflexivity].
    apply existsb_exists; exists (Some v); split; [|destruct (obj_eqb_spec (Some v) (Some v)); congruence].
    unfold top_values; apply in_map_iff; exists (n, c); split; [exact Hv|exact Hi].
  Qed.

  Theorem C49_delete_name : forall ops n s' r,
    delete_handlers isident (reached ops) [DName n] = (s', r) ->
    (r = Ok tt /\ (exists v, at_ (reached ops) (KStr n) = Ok (Some v)) /\ at_ s' (KStr n) = Ok None /\
       forall k, ~ same_name k (KStr n) -> at_ s' k = at_ (reached ops) k) \/
    (r = Err EKeyError /\ s' = reached ops /\ forall v, at_ (reached ops) (KStr n) <> Ok (Some v)).
  Proof.
    intros ops n s' r E; destruct (reach_RI isident is_handler pony ops) as [m R]; fold (reached ops) in R.
    cbn [delete_handlers delete_one] in E.
    destruct (del_key isident (reached ops) (KStr n)) as [s1 r1] eqn:E1.
    destruct (del_key_spec isident is_handler _ _ _ _ _ R E1) as [(p & v & -> & Ep & Ed & R')|(-> & -> & Hno)]; injection E as <- <-.
    - left; rewrite !(at_spec isident _ _ _ R), Ep, Ed; split; [reflexivity|]; split; [eauto|].
      assert (NoDup (dkeys m)) as Hnd by (destruct R as ((? & ? & _ & H & _) & _); exact H).
      rewrite (at_spec isident _ _ _ R'), Ep, (dget_ddel_same path_eqb path_eqb_spec) by exact Hnd; split; [reflexivity|].
      intros k Hk; rewrite (at_spec isident _ _ _ R'), (at_spec isident _ _ _ R).
      destruct (parse isident k) as [q|] eqn:Eq; [|reflexivity].
      rewrite (dget_ddel_other path_eqb path_eqb_spec); [reflexivity|]; intros <-.
      apply Hk; exists p; split; apply parse_denotes; assumption.
    - right; split; [reflexivity|]; split; [reflexivity|]; intros v; rewrite (at_spec isident _ _ _ R).
      destruct (parse isident (KStr n)) as [p|]; [rewrite (Hno p eq_refl)|]; discriminate.
  Qed.

  (** Deleting by object: exactly one top-level registration of that object goes; with none (for example
      when the object sits only under a dotted path) ValueError and nothing changes. *)
  Theorem C49_delete_object : forall ops v s' r,
    delete_handlers isident (reached ops) [DObj (Some v)] = (s', r) ->
    (r = Ok tt /\ exists n, denotes isident (KStr n) [n] /\ at_ (reached ops) (KStr n) = Ok (Some v) /\
       at_ s' (KStr n) = Ok None /\ forall k, ~ same_name k (KStr n) -> at_ s' k = at_ (reached ops) k) \/
    (r = Err EValueError /\ s' = reached ops /\
       forall n, denotes isident (KStr n) [n] -> at_ (reached ops) (KStr n) <> Ok (Some v)).
  Proof.
    intros ops v s' r E; destruct (reach_RI isident is_handler pony ops) as [m R]; fold (reached ops) in R.
    cbn [delete_handlers] in E.
    destruct (delete_one isident (reached ops) (DObj (Some v))) as [s1 r1] eqn:E1.
    destruct (delete_object_spec isident is_handler _ _ _ _ _ R E1) as [(n & -> & Ep & Ed & R')|(-> & -> & Hno)]; injection E as <- <-.
    - left; split; [reflexivity|]; exists n; split; [apply parse_denotes; exact Ep|].
      rewrite !(at_spec isident _ _ _ R), Ep, Ed; split; [reflexivity|].
      assert (NoDup (dkeys m)) as Hnd by (destruct R as ((? & ? & _ & H & _) & _); exact H).
      rewrite (at_spec isident _ _ _ R'), Ep, (dget_ddel_same path_eqb path_eqb_spec) by exact Hnd; split; [reflexivity|].
      intros k Hk; rewrite (at_spec isident _ _ _ R'), (at_spec isident _ _ _ R).
      destruct (parse isident k) as [q|] eqn:Eq; [|reflexivity].
      rewrite (dget_ddel_other path_eqb path_eqb_spec); [reflexivity|]; intros <-.
      apply Hk; exists [n]; split; apply parse_denotes; assumption.
    - right; split; [reflexivity|]; split; [reflexivity|]; intros n Hn; apply parse_denotes in Hn.
      rewrite (at_spec isident _ _ _ R), Hn; intros H; injection H as H; apply (Hno n H).
  Qed.

  (** A successful call with several arguments: every handler is stored, under its name, or under a name from the generator not used
      by an earlier call; nothing else changes. *)
  Theorem C49_add_several : forall ops args kwargs s',
    add_handlers isident is_handler pony (reached ops) args kwargs = (s', Ok tt) ->
    (forall n h, In (n, h) kwargs -> h <> None /\ at_ s' (KStr n) = Ok h) /\
    (forall items k h, In (ADict items) args -> In (k, h) items -> h <> None /\ at_ s' k = Ok h) /\
    (forall h, In (AObj h) args -> h <> None /\ exists i, rpony (reached ops) <= i < rpony s' /\ at_ s' (KStr (pony i)) = Ok h) /\
    (forall k, (forall n h, In (n, h) kwargs -> ~ same_name k (KStr n)) ->
               (forall items k' h, In (ADict items) args -> In (k', h) items -> ~ same_name k k') ->
               (forall i, rpony (reached ops) <= i < rpony s' -> ~ same_name k (KStr (pony i))) -> at_ s' k = at_ (reached ops) k).
  Proof.
    intros ops args kw s' E; destruct (reach_RI isident is_handler pony ops) as [m R]; fold (reached ops) in R.
    unfold add_handlers in E. destruct (add_args isident is_handler pony (reached ops) args) as [s1 [[]|e]] eqn:E1; [|discriminate].
    destruct (add_args_ok isident is_handler pony _ _ _ _ R E1) as (m1 & R1 & P1 & G1 & S1 & O1).
    destruct (set_handlers_ok isident is_handler _ _ _ _ R1 E) as (m2 & R2 & P2 & G2 & A2 & O2).
    split; [|split; [|split]].
    - intros n h Hin. destruct (A2 (KStr n) h) as (p & v & Ep & -> & Ed); [apply in_map_iff; exists (n, h); auto|]. split; [discriminate|].
      rewrite (at_spec isident _ _ _ R2), Ep, Ed; reflexivity.
    - intros items k h Ha Hin. destruct (S1 (ADict items) Ha k h Hin) as (p & v & Ep & -> & Ed). split; [discriminate|].
      rewrite (at_spec isident _ _ _ R2), Ep, (G2 _ _ Ed); reflexivity.
    - intros h Ha. destruct (S1 (AObj h) Ha) as (i & p & v & Hi & Ep & -> & Ed). split; [discriminate|]. exists i; split; [lia|].
      rewrite (at_spec isident _ _ _ R2), Ep, (G2 _ _ Ed); reflexivity.
    - intros k Hk Ha Hp. rewrite (at_spec isident _ _ _ R2), (at_spec isident _ _ _ R). destruct (parse isident k) as [p|] eqn:Ep; [|reflexivity].
      rewrite O2, O1; [reflexivity| |].
      + intros [h|items] Hin T; cbn [touches] in T.
        * destruct T as (i & Hi & Ei). apply (Hp i); [lia|]. exists p; split; apply parse_denotes; assumption.
        * destruct T as (k' & h & Hi & Ei). apply (Ha items k' h Hin Hi). exists p; split; apply parse_denotes; assumption.
      + intros k' h Hin Ek. apply in_map_iff in Hin; destruct Hin as ((n, h') & X & Hin); injection X as <- <-. cbn [fst] in Ek.
        apply (Hk n h' Hin). exists p; split; apply parse_denotes; assumption.
  Qed.

  (** A call that fails: the arguments before the failing one are registered, nothing of the later ones. *)
  Theorem C49_add_fails_in_the_middle : forall ops args s' e,
    add_handlers isident is_handler pony (reached ops) (map AObj args) [] = (s', Err e) ->
    exists a1 h a2 s1, args = a1 ++ h :: a2 /\ add_handlers isident is_handler pony (reached ops) (map AObj a1) [] = (s1, Ok tt) /\
      forall k, at_ s' k = at_ s1 k.
  Proof.
    intros ops args s' e E; destruct (reach_RI isident is_handler pony ops) as [m R]; fold (reached ops) in R. unfold add_handlers in *. cbn [map set_handlers] in *.
    assert (K : exists a1 h a2 s1, args = a1 ++ h :: a2 /\ add_args isident is_handler pony (reached ops) (map AObj a1) = (s1, Ok tt) /\ forall k, at_ s' k = at_ s1 k).
    { destruct (add_args isident is_handler pony (reached ops) (map AObj args)) as [s2 [u|e2]] eqn:E2; [discriminate|]. injection E as <- <-.
      revert E2 R. generalize (reached ops) as s. revert m. induction args as [|h args IH]; intros m s E2 R; cbn [map add_args] in E2; [discriminate|].
      destruct (add_one isident is_handler pony s h) as [s1 [[]|e1]] eqn:E1.
      - destruct (add_one_grows _ _ _ _ _ _ _ _ R E1) as (m1 & R1 & _). destruct (IH m1 s1 E2 R1) as (a1 & h' & a2 & s3 & -> & E3 & K).
        exists (h :: a1), h', a2, s3; split; [reflexivity|]; split; [|exact K]. cbn [map add_args]; rewrite E1; exact E3.
      - injection E2 as <- <-. exists [], h, args, s; split; [reflexivity|]; split; [reflexivity|]. intros k. unfold add_one in E1.
        destruct (existsb (obj_eqb h) (top_values s)); [injection E1 as <- _; reflexivity|].
        destruct (set_handler_spec _ _ _ _ _ _ _ _ (RI_pony _ _ _ _ R) E1) as [(p & v & X & _)|(-> & _)]; [discriminate|]. reflexivity. }
    destruct K as (a1 & h & a2 & s1 & -> & E1 & K). exists a1, h, a2, s1; split; [reflexivity|]; split; [rewrite E1; reflexivity|exact K].
  Qed.

  (** No needless refusals: as long as get_handlers( *names) was not called, a valid handler is accepted under every valid name at and
      below which nothing is registered. *)
  Theorem C49_add_accepted : forall ops n p v, forallb no_get ops = true ->
    denotes isident (KStr n) p -> p <> [] -> is_handler v = true ->
    (forall k t, denotes isident k (p ++ t) -> at_ (reached ops) k = Ok None) ->
    exists s', add_handlers isident is_handler pony (reached ops) [] [(n, Some v)] = (s', Ok tt).
  Proof.
    intros ops n p v Ng Hd Hp Hv Hfree; destruct (reach_RI isident is_handler pony ops) as [m R]; fold (reached ops) in R.
    pose proof (reach_tidy isident is_handler pony ops Ng) as T; fold (reached ops) in T. apply parse_denotes in Hd.
    unfold add_handlers; cbn [add_args map fst snd set_handlers].
    destruct (set_handler isident is_handler (reached ops) (KStr n) (Some v)) as [s1 [[]|e]] eqn:E1; [exists s1; reflexivity|].
    destruct (set_handler_spec _ _ _ _ _ _ _ _ R E1) as [(q & w & X & _)|(_ & e' & _ & _ & H)]; [discriminate|].
    pose proof (H p v Hd eq_refl Hv) as C. destruct R as (R & Hval).
    apply (proj1 (contains_tidy isident _ m (KStr n) p R T Hd Hp)) in C. destruct C as (t & Ct).
    destruct (Hval _ Ct) as (k & Ek). exfalso; apply Ct. specialize (Hfree (KStr k) t).
    rewrite (at_spec isident _ m (KStr k) (conj R Hval)), Ek in Hfree. assert (X : Ok (dget path_eqb m (p ++ t)) = Ok None) by (apply Hfree, parse_denotes; exact Ek). injection X as X; exact X.
  Qed.

  (** Deleting several names: all of them were registered and are gone, nothing else changes. *)
  Theorem C49_delete_several : forall ops ns s',
    delete_handlers isident (reached ops) (map DName ns) = (s', Ok tt) ->
    (forall n, In n ns -> (exists v, at_ (reached ops) (KStr n) = Ok (Some v)) /\ at_ s' (KStr n) = Ok None) /\
    (forall k, (forall n, In n ns -> ~ same_name k (KStr n)) -> at_ s' k = at_ (reached ops) k).
  Proof.
    intros ops ns s' E; destruct (reach_RI isident is_handler pony ops) as [m R]; fold (reached ops) in R.
    destruct (delete_names_ok isident is_handler _ _ _ _ R E) as (m' & R' & A & O & _). split.
    - intros n Hn; destruct (A n Hn) as (p & Ep & N & D). rewrite (at_spec isident _ _ _ R), (at_spec isident _ _ _ R'), Ep, D. split; [|reflexivity].
      destruct (dget path_eqb m p) as [v|]; [exists v; reflexivity|congruence].
    - intros k Hk. rewrite (at_spec isident _ _ _ R), (at_spec isident _ _ _ R'). destruct (parse isident k) as [p|] eqn:Ep; [|reflexivity].
      rewrite O; [reflexivity|]. intros n Hn En. apply (Hk n Hn). exists p; split; apply parse_denotes; assumption.
  Qed.

  (** get_handlers( *names) never changes what is registered. *)
  Theorem C05_get_handlers_keeps : forall ops names k,
    at_ (fst (get_handlers isident (reached ops) names)) k = at_ (reached ops) k.
  Proof.
    intros ops names k; destruct (reach_RI isident is_handler pony ops) as [m R]; fold (reached ops) in R.
    rewrite (at_spec isident _ _ _ R), (at_spec isident _ _ _ (get_handlers_RI isident is_handler _ _ names R)); reflexivity.
  Qed.

  (** A valid handler can be registered under a valid name after get_handlers( *names) iff it could be before and
      the name is no prefix of an asked name; a prefix is refused with NameError. *)
  Theorem C05_get_handlers_blocks : forall ops names ps s1 r n p v,
    names <> [] -> get_handlers isident (reached ops) names = (s1, Ok r) ->
    Forall2 (denotes isident) names ps ->
    denotes isident (KStr n) p -> is_handler v = true ->
    (snd (add_handlers isident is_handler pony s1 [] [(n, Some v)]) = Ok tt <->
     snd (add_handlers isident is_handler pony (reached ops) [] [(n, Some v)]) = Ok tt /\
     forall q, In q ps -> forall t, q <> p ++ t) /\
    ((exists q t, In q ps /\ q = p ++ t) ->
     add_handlers isident is_handler pony s1 [] [(n, Some v)] = (s1, Err ENameError)).
  Proof.
    intros ops names ps s1 r n p v Hne Eg Fps Hd Hv.
    destruct (reach_RI isident is_handler pony ops) as [m R]; fold (reached ops) in R.
    pose proof (get_handlers_RI isident is_handler _ _ names R) as R1; rewrite Eg in R1; cbn [fst] in R1.
    apply parse_denotes in Hd.
    assert (Forall2 (fun k p => parse isident k = Some p) names ps) as Fps'.
    { clear - Fps; induction Fps; constructor; auto; apply parse_denotes; assumption. }
    assert (Q : forall s, snd (add_handlers isident is_handler pony s [] [(n, Some v)]) = Ok tt <->
                exists t, RI isident s t /\ tree_contains isident (rheap s) 0 (KStr n) = Ok false \/
                          snd (add_handlers isident is_handler pony s [] [(n, Some v)]) = Ok tt).
    { intros s; split; [intros H; exists m; right; exact H|].
      intros (t & [(Rt & Hc)|H]); [|exact H].
      unfold add_handlers; cbn [add_args map fst snd set_handlers].
      destruct (set_handler isident is_handler s (KStr n) (Some v)) as [s2 r2] eqn:E2.
      destruct (set_handler_spec _ _ _ _ _ _ _ _ Rt E2) as [(p' & v' & -> & _)|(-> & e & -> & _ & H)]; [reflexivity|].
      rewrite (H p v Hd eq_refl Hv) in Hc; discriminate. }
    assert (Nm : forall s, tree_contains isident (rheap s) 0 (KStr n) = Ok true ->
                 add_handlers isident is_handler pony s [] [(n, Some v)] = (s, Err ENameError)).
    { intros s Hc; unfold add_handlers; cbn [add_args map fst snd set_handlers]; unfold set_handler; rewrite Hc; reflexivity. }
    assert (Ct : forall s, tree_contains isident (rheap s) 0 (KStr n) = Ok true \/ tree_contains isident (rheap s) 0 (KStr n) = Ok false).
    { intros s; rewrite tree_contains_spec, Hd; destruct (walk (rheap s) 0 p); auto. }
    destruct names as [|n0 names]; [congruence|].
    unfold get_handlers in Eg; destruct (project isident (rheap (reached ops)) 0 (n0 :: names)) as [hp [r0|e]] eqn:Ep; [|discriminate].
    injection Eg as <- <-.
    assert (Pres : tree_contains isident hp 0 (KStr n) = Ok true <->
             tree_contains isident (rheap (reached ops)) 0 (KStr n) = Ok true \/ exists q t, In q ps /\ q = p ++ t).
    { destruct R as ((b & loc & I & _ & _) & _).
      destruct (project_ok isident (n0 :: names) b loc _ I) as (loc' & h' & res & E & I' & A & L & Lk & Mono & F & Rest).
      rewrite Ep in E; injection E as <- <-.
      destruct (spec_project (V := nat) isident (n0 :: names)); try contradiction; [|discriminate].
      destruct Rest as (r' & Er & LR & Gok & ps' & Fps2 & Ips & Wps & Pps).
      assert (ps' = ps) as ->.
      { clear - Fps' Fps2; revert ps Fps'; induction Fps2 as [|k p ks ps' H _ IH]; intros ps F; inversion F; subst; [reflexivity|].
        f_equal; [congruence|apply IH; assumption]. }
      rewrite !tree_contains_spec, Hd; split.
      - destruct (walk hp 0 p) as [x|] eqn:Em; [|discriminate]; intros _.
        destruct (Wps p x Em) as [H|(q & Hq & t & Et)]; [left; rewrite H; reflexivity|right; exists q, t; auto].
      - intros [H|(q & t & Hq & Et)].
        + destruct (walk (rheap (reached ops)) 0 p) as [x|] eqn:Em; [|discriminate]; rewrite (Mono p x Em); reflexivity.
        + destruct (Pps q p Hq) as [x ->]; [exists t; exact Et|reflexivity]. }
    split.
    - split.
      + intros H; destruct (Ct (mkReg hp (rpony (reached ops)))) as [C|C].
        * rewrite (Nm _ C) in H; discriminate.
        * cbn [rheap] in C. split.
          -- apply Q; exists m; left; split; [exact R|]; destruct (Ct (reached ops)) as [C'|C']; [|exact C'].
             assert (tree_contains isident hp 0 (KStr n) = Ok true) by (apply Pres; left; exact C'); congruence.
          -- intros q Hq t Et; assert (tree_contains isident hp 0 (KStr n) = Ok true) by (apply Pres; right; exists q, t; auto); congruence.
      + intros [H Hno]; apply Q; exists m; left; split; [exact R1|]; cbn [rheap].
        destruct (Ct (mkReg hp (rpony (reached ops)))) as [C|C]; [|exact C]; cbn [rheap] in C.
        apply Pres in C; destruct C as [C|(q & t & Hq & Et)]; [|exfalso; apply (Hno q Hq t Et)].
        rewrite (Nm _ C) in H; discriminate.
    - intros Hx; apply Nm; cbn [rheap]; apply Pres; right; exact Hx.
  Qed.
End Props.

(** *** Concrete cases *)
Local Open Scope string_scope.
Local Open Scope list_scope.
Definition ident (s : string) : bool := negb (String.eqb s "").
Definition ishnd (n : nat) : bool := Nat.ltb n 100.
Definition pnames (n : nat) : string := String (ascii_of_nat (65 + n)) "pony".
Definition prog : list rop :=
  [RAdd [AObj (Some 1); ADict [(KStr "a.b", Some 2)]] [("f", Some 3); ("g", Some 3); ("f", Some 4)]; RGet [KStr "x.y"]; RDel [DName "a.b"; DObj (Some 7)]].
Notation got := (reached ident ishnd pnames).

Example C49_case :
  handler_at ident (got prog) (KStr "Apony") = Ok (Some 1) /\ handler_at ident (got prog) (KStr "f") = Ok (Some 3) /\
  snd (add_handlers ident ishnd pnames (got prog) [] [("f", Some 5)]) = Err ENameError /\
  snd (add_handlers ident ishnd pnames (got prog) [AObj (Some 1)] []) = Err EValueError /\
  snd (delete_handlers ident (got prog) [DObj (Some 3)]) = Ok tt /\
  handler_at ident (fst (delete_handlers ident (got prog) [DObj (Some 3)])) (KStr "f") = Ok (Some 3) /\
  handler_at ident (fst (delete_handlers ident (got prog) [DObj (Some 3)])) (KStr "g") = Ok None.
Proof. vm_compute; repeat split. Qed.

Example C49_case_several :
  (let (s, r) := add_handlers ident ishnd pnames (got prog) [AObj (Some 8); ADict [(KStr "a.b", Some 2); (KStr "a.c", Some 9)]] [("k", Some 8)] in
   r = Ok tt /\ handler_at ident s (KStr "Bpony") = Ok (Some 8) /\ handler_at ident s (KStr "a.c") = Ok (Some 9) /\ handler_at ident s (KStr "k") = Ok (Some 8) /\
   let (s2, r2) := delete_handlers ident s [DName "a.b"; DName "k"] in
   r2 = Ok tt /\ handler_at ident s2 (KStr "a.b") = Ok None /\ handler_at ident s2 (KStr "a.c") = Ok (Some 9) /\ handler_at ident s2 (KStr "k") = Ok None) /\
  (let (s, r) := add_handlers ident ishnd pnames (got prog) [AObj (Some 8); AObj (Some 200); AObj (Some 9)] [] in
   r = Err EValueError /\ handler_at ident s (KStr "Bpony") = Ok (Some 8) /\ handler_at ident s (KStr "Cpony") = Ok None).
Proof. vm_compute; repeat split. Qed.

Example C05_case_registry :
  handler_at ident (got prog) (KStr "x") = Ok None /\
  snd (get_handlers ident (got prog) [KStr "q.r"]) <> Err EKeyError /\
  snd (add_handlers ident ishnd pnames (fst (get_handlers ident (got prog) [KStr "q.r"])) [] [("q", Some 5)]) = Err ENameError /\
  snd (add_handlers ident ishnd pnames (got prog) [] [("q", Some 5)]) = Ok tt.
Proof. vm_compute; repeat split; discriminate. Qed.

(** The documentation of add_handlers (config.py 84) forbids registering one object twice; by name it works. *)
Theorem C49_same_object_twice_refuted : exists ops v n1 n2, n1 <> n2 /\
  handler_at ident (got ops) (KStr n1) = Ok (Some v) /\ handler_at ident (got ops) (KStr n2) = Ok (Some v).
Proof.
  exists [RAdd [] [("f", Some 3); ("g", Some 3)]], 3, "f", "g"; split; [discriminate|]; vm_compute; auto.
Qed.

(** A handler can not be registered above an existing one: "a.b" blocks "a". *)
Theorem C49_prefix_blocked : exists ops v, handler_at ident (got ops) (KStr "a") = Ok None /\
  snd (add_handlers ident ishnd pnames (got ops) [] [("a", Some v)]) = Err ENameError.
Proof. exists [RAdd [ADict [(KStr "a.b", Some 2)]] []], 5; vm_compute; auto. Qed.

Print Assumptions C49_add_never_replaces.
Print Assumptions C49_add_named.
Print Assumptions C49_duplicate_name_refused.
Print Assumptions C49_duplicate_object_refused.
Print Assumptions C49_delete_name.
Print Assumptions C49_delete_object.
Print Assumptions C49_add_several.
Print Assumptions C49_add_fails_in_the_middle.
Print Assumptions C49_add_accepted.
Print Assumptions C49_delete_several.
Print Assumptions C49_same_object_twice_refuted.
Print Assumptions C49_prefix_blocked.
Print Assumptions C05_get_handlers_keeps.
Print Assumptions C05_get_handlers_blocks.
