(** Proofs about the handler registry. *)
From Verif Require Import Base Tree_Model Tree_Spec Tree_Heap Tree_Ops Tree_Project Tree_Proofs Reg_Model.

Section RegProofs.
  Variable isident : string -> bool.
  Variable is_handler : nat -> bool.
  Variable pony : nat -> string.
  Notation at_ := (handler_at isident).

  (** The registry stands for a map of valid paths. *)
  Definition RI (s : rstate) (m : amap nat) : Prop :=
    Rel (rheap s) m /\ forall p, dget path_eqb m p <> None -> exists k, parse isident (KStr k) = Some p.

  Lemma RI_init : RI rinit [].
  Proof. split; [apply Rel_empty|]; intros p H; exfalso; apply H; reflexivity. Qed.

  Lemma at_spec : forall s m k, RI s m -> at_ s k =
    match parse isident k with Some p => Ok (dget path_eqb m p) | None => Err EKeyError end.
  Proof.
    intros s m k ((b & loc & _ & _ & Hl) & _); unfold handler_at; rewrite tree_get_spec.
    destruct (parse isident k); [rewrite Hl|]; reflexivity.
  Qed.

  (** set_handler either stores a new path or changes nothing. *)
  Lemma set_handler_spec : forall s m k h s' r, RI s m -> set_handler isident is_handler s k h = (s', r) ->
    (exists p v, r = Ok tt /\ h = Some v /\ is_handler v = true /\ parse isident k = Some p /\ dget path_eqb m p = None /\
       RI s' (dset path_eqb m p v)) \/
    (s' = s /\ exists e, r = Err e /\
      (forall p, parse isident k = Some p -> tree_contains isident (rheap s) 0 k = Ok true -> e = ENameError) /\
      (forall p v, parse isident k = Some p -> h = Some v -> is_handler v = true -> tree_contains isident (rheap s) 0 k = Ok true)).
  Proof.
    intros s m k h s' r RIs E; pose proof RIs as (R & Hv); unfold set_handler in E.
    rewrite tree_contains_spec in E; destruct (parse isident k) as [p|] eqn:Ep.
    - destruct (walk (rheap s) 0 p) as [n|] eqn:Ew.
      + injection E as <- <-; right; split; [reflexivity|]; exists ENameError; repeat split.
        intros; rewrite tree_contains_spec, Ep, Ew; reflexivity.
      + destruct (step_refines isident is_handler _ _ (OSet k h) R) as [R' Eo].
        cbn [tree_step] in R', Eo.
        assert (dget path_eqb m p = None) as Hn.
        { destruct R as (b & loc & _ & _ & Hl); rewrite <- Hl; unfold lookup; rewrite Ew; reflexivity. }
        destruct (tree_set isident is_handler (rheap s) 0 k h) as [hp|e] eqn:Et; injection E as <- <-.
        * left; cbn [fst snd] in *.
          destruct k as [t|]; [|discriminate]; destruct h as [v|]; [|cbn in Eo; discriminate].
          cbn [map_step] in Eo, R'; destruct (is_handler v) eqn:Ei; [|discriminate].
          rewrite Ep in *; cbn [fst snd] in *.
          exists p, v; split; [reflexivity|]; split; [reflexivity|]; split; [exact Ei|]; split; [assumption || reflexivity|]; split; [exact Hn|].
          split; [exact R'|]; cbn [rheap] in *; intros q Hq; rewrite (dget_dset path_eqb path_eqb_spec) in Hq.
          destruct (path_eqb_spec q p) as [Eqp|Hne]; [exists t; rewrite Eqp; exact Ep|apply Hv; exact Hq].
        * right; split; [reflexivity|]; exists e; repeat split.
          -- intros p0 E0 Ec; rewrite tree_contains_spec, Ep, Ew in Ec; discriminate.
          -- intros p0 v E0 -> Hi; exfalso; cbn [snd] in Eo.
             destruct k as [t|]; [|discriminate]; cbn [map_step] in Eo; rewrite Hi, Ep in Eo; discriminate.
    - injection E as <- <-; right; split; [reflexivity|]; exists EKeyError; repeat split; intros; discriminate.
  Qed.

  (** [keeps s m s']: every stored handler stays where it is. *)
  Definition grows (m m' : amap nat) : Prop := forall p v, dget path_eqb m p = Some v -> dget path_eqb m' p = Some v.

  Lemma grows_refl : forall m, grows m m. Proof. intros m p v H; exact H. Qed.
  Lemma grows_trans : forall a b c, grows a b -> grows b c -> grows a c.
  Proof. intros a b c H1 H2 p v H; apply H2, H1; exact H. Qed.

  Lemma set_handler_grows : forall s m k h s' r, RI s m -> set_handler isident is_handler s k h = (s', r) ->
    exists m', RI s' m' /\ grows m m'.
  Proof.
    intros s m k h s' r RIs E; destruct (set_handler_spec s m k h s' r RIs E) as [(p & v & _ & _ & _ & _ & Hn & R')|(-> & _)].
    - exists (dset path_eqb m p v); split; [exact R'|]; intros q w Hq.
      rewrite (dget_dset path_eqb path_eqb_spec); destruct (path_eqb_spec q p) as [->|]; congruence.
    - exists m; split; [exact RIs|apply grows_refl].
  Qed.

  Lemma set_handlers_grows : forall items s m s' r, RI s m -> set_handlers isident is_handler s items = (s', r) ->
    exists m', RI s' m' /\ grows m m'.
  Proof.
    induction items as [|[k h] items IH]; intros s m s' r R E; cbn [set_handlers] in E.
    - injection E as <- <-; exists m; split; [exact R|apply grows_refl].
    - destruct k as [t|]; [|injection E as <- <-; exists m; split; [exact R|apply grows_refl]].
      destruct (set_handler isident is_handler s (KStr t) h) as [s1 [u|e]] eqn:E1.
      + destruct (set_handler_grows _ _ _ _ _ _ R E1) as (m1 & R1 & G1).
        destruct (IH _ _ _ _ R1 E) as (m2 & R2 & G2); exists m2; split; [exact R2|]; eapply grows_trans; eassumption.
      + injection E as <- <-; apply (set_handler_grows _ _ _ _ _ _ R E1).
  Qed.

  Lemma RI_pony : forall s m n, RI s m -> RI (mkReg (rheap s) n) m.
  Proof. intros s m n R; exact R. Qed.

  Lemma add_one_grows : forall s m h s' r, RI s m -> add_one isident is_handler pony s h = (s', r) ->
    exists m', RI s' m' /\ grows m m'.
  Proof.
    intros s m h s' r R E; unfold add_one in E; destruct (existsb (obj_eqb h) (top_values s)).
    - injection E as <- <-; exists m; split; [exact R|apply grows_refl].
    - apply (set_handler_grows _ _ _ _ _ _ (RI_pony _ _ _ R) E).
  Qed.

  Lemma add_args_grows : forall args s m s' r, RI s m -> add_args isident is_handler pony s args = (s', r) ->
    exists m', RI s' m' /\ grows m m'.
  Proof.
    induction args as [|a args IH]; intros s m s' r R E; cbn [add_args] in E.
    - injection E as <- <-; exists m; split; [exact R|apply grows_refl].
    - destruct (match a with AObj h => add_one isident is_handler pony s h | ADict items => set_handlers isident is_handler s items end)
        as [s1 r1] eqn:E1.
      assert (exists m1, RI s1 m1 /\ grows m m1) as (m1 & R1 & G1).
      { destruct a; [apply (add_one_grows _ _ _ _ _ R E1)|apply (set_handlers_grows _ _ _ _ _ R E1)]. }
      destruct r1 as [u|e].
      + destruct (IH _ _ _ _ R1 E) as (m2 & R2 & G2); exists m2; split; [exact R2|]; eapply grows_trans; eassumption.
      + injection E as <- <-; eauto.
  Qed.

  Lemma add_handlers_grows : forall args kw s m s' r, RI s m -> add_handlers isident is_handler pony s args kw = (s', r) ->
    exists m', RI s' m' /\ grows m m'.
  Proof.
    intros args kw s m s' r R E; unfold add_handlers in E.
    destruct (add_args isident is_handler pony s args) as [s1 [u|e]] eqn:E1.
    - destruct (add_args_grows _ _ _ _ _ R E1) as (m1 & R1 & G1).
      destruct (set_handlers_grows _ _ _ _ _ R1 E) as (m2 & R2 & G2); exists m2; split; [exact R2|]; eapply grows_trans; eassumption.
    - injection E as <- <-; apply (add_args_grows _ _ _ _ _ R E1).
  Qed.

  (** Deleting a key. *)
  Lemma del_key_spec : forall s m k s' r, RI s m -> del_key isident s k = (s', r) ->
    (exists p v, r = Ok tt /\ parse isident k = Some p /\ dget path_eqb m p = Some v /\ RI s' (ddel path_eqb m p)) \/
    (s' = s /\ r = Err EKeyError /\ forall p, parse isident k = Some p -> dget path_eqb m p = None).
  Proof.
    intros s m k s' r RIs E; pose proof RIs as (R & Hv); unfold del_key in E.
    destruct (step_refines isident is_handler _ _ (ODel k) R) as [R' Eo]; cbn [tree_step map_step] in R', Eo.
    destruct (tree_del isident (rheap s) 0 k) as [hp|e] eqn:Et; injection E as <- <-; cbn [fst snd] in *.
    - destruct (parse isident k) as [p|] eqn:Ep; [|discriminate].
      destruct (dget path_eqb m p) as [v|] eqn:Ev; [|discriminate]; cbn [fst snd] in *.
      left; exists p, v; split; [reflexivity|]; split; [reflexivity || assumption|]; split; [reflexivity || assumption|]; split; [exact R'|]; intros q Hq; apply Hv.
      destruct (path_eqb_spec q p) as [->|Hne]; [congruence|].
      rewrite (dget_ddel_other path_eqb path_eqb_spec) in Hq by congruence; exact Hq.
    - right; split; [reflexivity|]; destruct (parse isident k) as [p|] eqn:Ep.
      + destruct (dget path_eqb m p) as [v|] eqn:Ev; cbn [snd] in Eo; [discriminate|].
        injection Eo as ->; split; [reflexivity|]; intros q Eq; congruence.
      + injection Eo as ->; split; [reflexivity|]; intros q Eq; congruence.
  Qed.

  Lemma delete_one_RI : forall s m a s' r, RI s m -> delete_one isident s a = (s', r) -> exists m', RI s' m'.
  Proof.
    intros s m a s' r R E.
    assert (forall k, del_key isident s k = (s', r) -> exists m', RI s' m') as D.
    { intros k Ek; destruct (del_key_spec _ _ _ _ _ R Ek) as [(p & v & _ & _ & _ & R')|(-> & _)]; eauto. }
    destruct a as [n|h]; cbn [delete_one] in E; [apply (D _ E)|].
    destruct (last_name s h (nchilds (hget (rheap s) 0))) as [[n|]|]; [apply (D _ E)|apply (D _ E)|].
    injection E as <- <-; eauto.
  Qed.

  Lemma delete_handlers_RI : forall args s m s' r, RI s m -> delete_handlers isident s args = (s', r) -> exists m', RI s' m'.
  Proof.
    induction args as [|a args IH]; intros s m s' r R E; cbn [delete_handlers] in E.
    - injection E as <- <-; eauto.
    - destruct (delete_one isident s a) as [s1 [u|e]] eqn:E1; destruct (delete_one_RI _ _ _ _ _ R E1) as [m1 R1].
      + apply (IH _ _ _ _ R1 E).
      + injection E as <- <-; eauto.
  Qed.

  Lemma get_handlers_RI : forall s m names, RI s m -> RI (fst (get_handlers isident s names)) m.
  Proof.
    intros s m [|n names] R; [exact R|]; destruct R as (R & Hv).
    destruct (step_refines isident is_handler _ _ (OProject (n :: names)) R) as [R' _].
    cbn [tree_step map_step] in R'; unfold get_handlers.
    destruct (project isident (rheap s) 0 (n :: names)) as [hp [r|e]]; cbn [fst] in *; (split; [exact R'|exact Hv]).
  Qed.

  Lemma reach_RI : forall ops, exists m, RI (fold_left (reg_step isident is_handler pony) ops rinit) m.
  Proof.
    intros ops; rewrite <- (rev_involutive ops); induction (rev ops) as [|o r IH]; cbn [rev].
    - exists []; apply RI_init.
    - rewrite fold_left_app; cbn [fold_left]; destruct IH as [m R].
      set (s := fold_left (reg_step isident is_handler pony) (rev r) rinit) in *.
      destruct o as [a k|a|n]; cbn [reg_step].
      + destruct (add_handlers isident is_handler pony s a k) as [s' rr] eqn:E.
        destruct (add_handlers_grows _ _ _ _ _ _ R E) as (m' & R' & _); eauto.
      + destruct (delete_handlers isident s a) as [s' rr] eqn:E; apply (delete_handlers_RI _ _ _ _ _ R E).
      + exists m; apply get_handlers_RI; exact R.
  Qed.

  (** Top-level nodes. *)
  Lemma obj_eqb_spec : forall a b, reflect (a = b) (obj_eqb a b).
  Proof.
    intros [a|] [b|]; cbn; try (constructor; congruence).
    destruct (Nat.eqb_spec a b); constructor; congruence.
  Qed.

  Lemma top_entry : forall s m k c, RI s m -> In (k, c) (nchilds (hget (rheap s) 0)) ->
    nname (hget (rheap s) c) = Some k /\ nval (hget (rheap s) c) = dget path_eqb m [k] /\
    (nval (hget (rheap s) c) <> None -> parse isident (KStr k) = Some [k]).
  Proof.
    intros s m k c ((b & loc & (W & _) & _ & Hl) & Hv) Hin.
    assert (edge (rheap s) 0 k c) as E by (apply (In_dget String.eqb String.eqb_spec); [apply W|exact Hin]).
    destruct (wf_edge_src _ _ W _ _ _ E (wf_root _ _ W)) as (_ & _ & Hn).
    assert (nval (hget (rheap s) c) = dget path_eqb m [k]) as Ev.
    { rewrite <- Hl; unfold lookup; cbn [walk]; unfold edge in E; rewrite E; reflexivity. }
    split; [exact Hn|]; split; [exact Ev|]; rewrite Ev; intros H.
    destruct (Hv [k] H) as (t & Et); pose proof Et as Et'; apply parse_denotes in Et'; cbn [denotes] in Et'.
    destruct Et' as [[_ E']|(_ & _ & E' & _)]; [discriminate|]; cbn [join_dots] in E'; subst t; exact Et.
  Qed.

  Lemma last_name_some : forall s h cs n, last_name s h cs = Some n ->
    exists k c, In (k, c) cs /\ nval (hget (rheap s) c) = h /\ n = nname (hget (rheap s) c).
  Proof.
    intros s h; induction cs as [|[k c] cs IH]; intros n E; cbn [last_name] in E; [discriminate|].
    destruct (last_name s h cs) as [n'|] eqn:El.
    - injection E as <-; destruct (IH n' eq_refl) as (k' & c' & Hi & Hv & Hn); exists k', c'; split; [right; exact Hi|auto].
    - destruct (obj_eqb_spec h (nval (hget (rheap s) c))) as [Eh|]; [|discriminate].
      injection E as <-; exists k, c; split; [left; reflexivity|auto].
  Qed.

  Lemma last_name_none : forall s h cs, last_name s h cs = None ->
    forall k c, In (k, c) cs -> nval (hget (rheap s) c) <> h.
  Proof.
    intros s h; induction cs as [|[k0 c0] cs IH]; intros E k c Hi; cbn [last_name] in E; [destruct Hi|].
    destruct (last_name s h cs) as [n'|] eqn:El; [discriminate|].
    destruct (obj_eqb_spec h (nval (hget (rheap s) c0))) as [Eh|Eh]; [discriminate|].
    destruct Hi as [E1|Hi]; [injection E1 as <- <-; congruence|apply (IH eq_refl k c Hi)].
  Qed.

  (** A stored top-level path is one of the root's children. *)
  Lemma top_child : forall s m n v, RI s m -> dget path_eqb m [n] = Some v ->
    exists c, In (n, c) (nchilds (hget (rheap s) 0)) /\ nval (hget (rheap s) c) = Some v.
  Proof.
    intros s m n v ((b & loc & (W & _) & _ & Hl) & _) E; rewrite <- Hl in E; unfold lookup in E; cbn [walk] in E.
    destruct (dget String.eqb (nchilds (hget (rheap s) 0)) n) as [c|] eqn:Ec; [|discriminate].
    exists c; split; [apply (dget_In String.eqb String.eqb_spec); exact Ec|exact E].
  Qed.

  Lemma delete_object_spec : forall s m v s' r, RI s m -> delete_one isident s (DObj (Some v)) = (s', r) ->
    (exists n, r = Ok tt /\ parse isident (KStr n) = Some [n] /\ dget path_eqb m [n] = Some v /\ RI s' (ddel path_eqb m [n])) \/
    (s' = s /\ r = Err EValueError /\ forall n, dget path_eqb m [n] <> Some v).
  Proof.
    intros s m v s' r R E; cbn [delete_one] in E.
    destruct (last_name s (Some v) (nchilds (hget (rheap s) 0))) as [n|] eqn:El.
    - destruct (last_name_some _ _ _ _ El) as (k & c & Hi & Hv & Hn).
      destruct (top_entry s m k c R Hi) as (Hn' & Hd & Hp).
      rewrite Hn' in Hn; subst n.
      assert (parse isident (KStr k) = Some [k]) as Ep by (apply Hp; congruence).
      assert (dget path_eqb m [k] = Some v) as Ed by congruence.
      destruct (del_key_spec _ _ _ _ _ R E) as [(p & w & Hr & Ep' & Ed' & R')|(_ & _ & Hno)].
      + left; exists k; assert (p = [k]) as -> by congruence; auto.
      + rewrite (Hno [k] Ep) in Ed; discriminate.
    - injection E as <- <-; right; split; [reflexivity|]; split; [reflexivity|].
      intros n Hn; destruct (top_child s m n v R Hn) as (c & Hi & Hv).
      apply (last_name_none _ _ _ El n c Hi Hv).
  Qed.

  (** *** Several at once *)
  Lemma set_handlers_ok : forall items s m s', RI s m -> set_handlers isident is_handler s items = (s', Ok tt) ->
    exists m', RI s' m' /\ rpony s' = rpony s /\ grows m m' /\
      (forall k h, In (k, h) items -> exists p v, parse isident k = Some p /\ h = Some v /\ dget path_eqb m' p = Some v) /\
      (forall p, (forall k h, In (k, h) items -> parse isident k <> Some p) -> dget path_eqb m' p = dget path_eqb m p).
  Proof.
    induction items as [|[k h] items IH]; intros s m s' R E; cbn [set_handlers] in E.
    - injection E as <-; exists m; split; [exact R|]; split; [reflexivity|]; split; [apply grows_refl|]; split; [intros k h []|reflexivity].
    - destruct k as [t|]; [|discriminate]. destruct (set_handler isident is_handler s (KStr t) h) as [s1 [[]|e]] eqn:E1; [|discriminate].
      assert (P1 : rpony s1 = rpony s).
      { unfold set_handler in E1. destruct (tree_contains isident (rheap s) 0 (KStr t)) as [[|]|]; try discriminate.
        destruct (tree_set isident is_handler (rheap s) 0 (KStr t) h); [|discriminate]. injection E1 as <-; reflexivity. }
      destruct (set_handler_spec _ _ _ _ _ _ R E1) as [(p & v & _ & -> & _ & Ep & Hn & R1)|(_ & e & X & _)]; [|discriminate].
      destruct (IH s1 _ s' R1 E) as (m' & R' & P' & G' & A' & O').
      assert (Gp : dget path_eqb m' p = Some v) by (apply G'; apply (dget_dset_same path_eqb path_eqb_spec)).
      exists m'; split; [exact R'|]; split; [congruence|]; split.
      + apply (grows_trans _ (dset path_eqb m p v)); [|exact G']. intros q w Hq. rewrite (dget_dset path_eqb path_eqb_spec); destruct (path_eqb_spec q p) as [->|]; congruence.
      + split.
        * intros k h [H|H]; [injection H as <- <-; exists p, v; auto|apply A', H].
        * intros q Hq. rewrite O' by (intros k h H; apply (Hq k h); right; exact H).
          rewrite (dget_dset_other path_eqb path_eqb_spec); [reflexivity|]. intros <-. apply (Hq (KStr t) (Some v)); [left; reflexivity|exact Ep].
  Qed.

  (** The names a positional argument can be stored under. *)
  Definition touches (lo hi : nat) (a : harg) (p : path) : Prop :=
    match a with
    | AObj _ => exists i, lo <= i < hi /\ parse isident (KStr (pony i)) = Some p
    | ADict items => exists k h, In (k, h) items /\ parse isident k = Some p
    end.
  Definition stored (lo hi : nat) (m : amap nat) (a : harg) : Prop :=
    match a with
    | AObj h => exists i p v, lo <= i < hi /\ parse isident (KStr (pony i)) = Some p /\ h = Some v /\ dget path_eqb m p = Some v
    | ADict items => forall k h, In (k, h) items -> exists p v, parse isident k = Some p /\ h = Some v /\ dget path_eqb m p = Some v
    end.
  Lemma stored_later : forall lo hi lo' hi' m m' a, lo' <= lo -> hi <= hi' -> grows m m' -> stored lo hi m a -> stored lo' hi' m' a.
  Proof.
    intros lo hi lo' hi' m m' [h|items] L H G S; cbn [stored] in *.
    - destruct S as (i & p & v & Hi & Ep & Eh & Ed); exists i, p, v; split; [lia|]; split; [exact Ep|]; split; [exact Eh|apply G, Ed].
    - intros k h Hin; destruct (S k h Hin) as (p & v & Ep & Eh & Ed); exists p, v; split; [exact Ep|]; split; [exact Eh|apply G, Ed].
  Qed.
  Lemma touches_later : forall lo hi lo' hi' a p, lo' <= lo -> hi <= hi' -> touches lo hi a p -> touches lo' hi' a p.
  Proof. intros lo hi lo' hi' [h|items] p L H T; cbn [touches] in *; [destruct T as (i & Hi & E); exists i; split; [lia|exact E]|exact T]. Qed.

  Lemma add_args_ok : forall args s m s', RI s m -> add_args isident is_handler pony s args = (s', Ok tt) ->
    exists m', RI s' m' /\ rpony s <= rpony s' /\ grows m m' /\
      (forall a, In a args -> stored (rpony s) (rpony s') m' a) /\
      (forall p, (forall a, In a args -> ~ touches (rpony s) (rpony s') a p) -> dget path_eqb m' p = dget path_eqb m p).
  Proof.
    induction args as [|a args IH]; intros s m s' R E; cbn [add_args] in E.
    - injection E as <-; exists m; split; [exact R|]; split; [lia|]; split; [apply grows_refl|]; split; [intros a []|reflexivity].
    - destruct (match a with AObj h => add_one isident is_handler pony s h | ADict items => set_handlers isident is_handler s items end) as [s1 [[]|e]] eqn:E1; [|discriminate].
      assert (One : exists m1, RI s1 m1 /\ rpony s <= rpony s1 /\ grows m m1 /\ stored (rpony s) (rpony s1) m1 a /\
                (forall p, ~ touches (rpony s) (rpony s1) a p -> dget path_eqb m1 p = dget path_eqb m p)).
      { destruct a as [h|items].
        - unfold add_one in E1. destruct (existsb (obj_eqb h) (top_values s)); [discriminate|].
          assert (P1 : rpony s1 = S (rpony s)).
          { unfold set_handler in E1; cbn [rheap rpony] in E1. destruct (tree_contains isident (rheap s) 0 _) as [[|]|]; try discriminate.
            destruct (tree_set isident is_handler (rheap s) 0 _ h); [|discriminate]. injection E1 as <-; reflexivity. }
          destruct (set_handler_spec _ _ _ _ _ _ (RI_pony _ _ _ R) E1) as [(p & v & _ & -> & _ & Ep & Hn & R1)|(_ & e & X & _)]; [|discriminate].
          exists (dset path_eqb m p v); split; [exact R1|]; split; [lia|]; split.
          + intros q w Hq. rewrite (dget_dset path_eqb path_eqb_spec); destruct (path_eqb_spec q p) as [->|]; congruence.
          + split.
            * exists (rpony s), p, v; split; [lia|]; split; [exact Ep|]; split; [reflexivity|apply (dget_dset_same path_eqb path_eqb_spec)].
            * intros q Hq. rewrite (dget_dset_other path_eqb path_eqb_spec); [reflexivity|]. intros <-. apply Hq; exists (rpony s); split; [lia|exact Ep].
        - destruct (set_handlers_ok _ _ _ _ R E1) as (m1 & R1 & P1 & G1 & A1 & O1). exists m1; split; [exact R1|]; split; [lia|]; split; [exact G1|].
          split; [exact A1|]. intros p Hp; apply O1; intros k h Hin Ek; apply Hp; exists k, h; auto. }
      destruct One as (m1 & R1 & P1 & G1 & S1 & O1). destruct (IH s1 m1 s' R1 E) as (m' & R' & P' & G' & A' & O').
      exists m'; split; [exact R'|]; split; [lia|]; split; [apply (grows_trans _ m1); assumption|]. split.
      + intros x [<-|Hx]; [apply (stored_later (rpony s) (rpony s1) _ _ m1); auto|apply (stored_later (rpony s1) (rpony s') _ _ m'); auto; apply grows_refl].
      + intros p Hp. rewrite O'; [apply O1|].
        * intros T; apply (Hp a); [left; reflexivity|]. apply (touches_later (rpony s) (rpony s1)); auto.
        * intros x Hx T; apply (Hp x); [right; exact Hx|]. apply (touches_later (rpony s1) (rpony s')); auto.
  Qed.

  Lemma delete_names_ok : forall ns s m s', RI s m -> delete_handlers isident s (map DName ns) = (s', Ok tt) ->
    exists m', RI s' m' /\ (forall n, In n ns -> exists p, parse isident (KStr n) = Some p /\ dget path_eqb m p <> None /\ dget path_eqb m' p = None) /\
      (forall p, (forall n, In n ns -> parse isident (KStr n) <> Some p) -> dget path_eqb m' p = dget path_eqb m p) /\
      (forall p, dget path_eqb m' p <> None -> dget path_eqb m' p = dget path_eqb m p).
  Proof.
    induction ns as [|n ns IH]; intros s m s' R E; cbn [map delete_handlers delete_one] in E.
    - injection E as <-; exists m; split; [exact R|]; split; [intros n []|]; auto.
    - destruct (del_key isident s (KStr n)) as [s1 [[]|e]] eqn:E1; [|discriminate].
      destruct (del_key_spec _ _ _ _ _ R E1) as [(p & v & _ & Ep & Ed & R1)|(_ & X & _)]; [|discriminate].
      assert (Hnd : NoDup (dkeys m)) by (destruct R as ((? & ? & _ & H & _) & _); exact H).
      destruct (IH s1 _ s' R1 E) as (m' & R' & A' & O' & K').
      assert (Dd : forall q, dget path_eqb (ddel path_eqb m p) q <> None -> dget path_eqb (ddel path_eqb m p) q = dget path_eqb m q).
      { intros q Hq. destruct (path_eqb_spec q p) as [->|Hne]; [rewrite (dget_ddel_same path_eqb path_eqb_spec) in Hq by exact Hnd; congruence|].
        rewrite (dget_ddel_other path_eqb path_eqb_spec) by congruence; reflexivity. }
      assert (K2 : forall q, dget path_eqb m' q <> None -> dget path_eqb m' q = dget path_eqb m q).
      { intros q Hq. rewrite (K' q Hq). apply Dd. rewrite <- (K' q Hq); exact Hq. }
      assert (Dp : dget path_eqb m' p = None).
      { destruct (dget path_eqb m' p) as [w|] eqn:Dw; [|reflexivity]. assert (N : dget path_eqb m' p <> None) by congruence.
        pose proof (K' p N) as X. rewrite (dget_ddel_same path_eqb path_eqb_spec) in X by exact Hnd. congruence. }
      exists m'; split; [exact R'|]; split; [|split; [|exact K2]].
      + intros x [<-|Hx]; [exists p; split; [exact Ep|]; split; [congruence|exact Dp]|].
        destruct (A' x Hx) as (q & Eq & Nq & Dq). exists q; split; [exact Eq|]; split; [|exact Dq]. rewrite <- (Dd q Nq); exact Nq.
      + intros q Hq. rewrite O' by (intros x Hx; apply Hq; right; exact Hx).
        rewrite (dget_ddel_other path_eqb path_eqb_spec); [reflexivity|]. intros <-; apply (Hq n); [left; reflexivity|exact Ep].
  Qed.

  (** *** No needless refusals *)
  Lemma set_handler_tidy : forall s m k h, RI s m -> tidy (rheap s) -> tidy (rheap (fst (set_handler isident is_handler s k h))).
  Proof.
    intros s m k h (R & _) T; unfold set_handler. destruct (tree_contains isident (rheap s) 0 k) as [[|]|]; try exact T.
    pose proof (tidy_step isident is_handler (rheap s) m (OSet k h) R T eq_refl) as T1. cbn [tree_step] in T1.
    destruct (tree_set isident is_handler (rheap s) 0 k h); exact T1.
  Qed.
  Lemma set_handlers_tidy : forall items s m, RI s m -> tidy (rheap s) -> tidy (rheap (fst (set_handlers isident is_handler s items))).
  Proof.
    induction items as [|[k h] items IH]; intros s m R T; cbn [set_handlers]; [exact T|]. destruct k as [t|]; [|exact T].
    pose proof (set_handler_tidy s m (KStr t) h R T) as T1. destruct (set_handler isident is_handler s (KStr t) h) as [s1 [u|e]] eqn:E1; [|exact T1].
    destruct (set_handler_grows _ _ _ _ _ _ R E1) as (m1 & R1 & _). apply (IH s1 m1 R1 T1).
  Qed.
  Lemma add_tidy : forall args kw s m, RI s m -> tidy (rheap s) -> tidy (rheap (fst (add_handlers isident is_handler pony s args kw))).
  Proof.
    assert (A : forall args s m, RI s m -> tidy (rheap s) -> tidy (rheap (fst (add_args isident is_handler pony s args)))).
    { induction args as [|a args IH]; intros s m R T; cbn [add_args]; [exact T|].
      assert (T1 : tidy (rheap (fst (match a with AObj h => add_one isident is_handler pony s h | ADict items => set_handlers isident is_handler s items end)))).
      { destruct a as [h|items]; [|apply (set_handlers_tidy items s m R T)]. unfold add_one. destruct (existsb (obj_eqb h) (top_values s)); [exact T|].
        apply (set_handler_tidy _ m _ _ (RI_pony _ _ _ R) T). }
      destruct (match a with AObj h => add_one isident is_handler pony s h | ADict items => set_handlers isident is_handler s items end) as [s1 [u|e]] eqn:E1; [|exact T1].
      assert (R1 : exists m1, RI s1 m1).
      { destruct a as [h|items]; [destruct (add_one_grows _ _ _ _ _ R E1) as (m1 & R1 & _)|destruct (set_handlers_grows _ _ _ _ _ R E1) as (m1 & R1 & _)]; exists m1; exact R1. }
      destruct R1 as (m1 & R1). apply (IH s1 m1 R1 T1). }
    intros args kw s m R T; unfold add_handlers. pose proof (A args s m R T) as T1.
    destruct (add_args isident is_handler pony s args) as [s1 [u|e]] eqn:E1; [|exact T1].
    destruct (add_args_grows _ _ _ _ _ R E1) as (m1 & R1 & _). apply (set_handlers_tidy _ s1 m1 R1 T1).
  Qed.
  Lemma del_key_tidy : forall s m k, RI s m -> tidy (rheap s) -> tidy (rheap (fst (del_key isident s k))).
  Proof.
    intros s m k (R & _) T; unfold del_key. pose proof (tidy_step isident is_handler (rheap s) m (ODel k) R T eq_refl) as T1. cbn [tree_step] in T1.
    destruct (tree_del isident (rheap s) 0 k); exact T1.
  Qed.
  Lemma del_tidy : forall args s m, RI s m -> tidy (rheap s) -> tidy (rheap (fst (delete_handlers isident s args))).
  Proof.
    induction args as [|a args IH]; intros s m R T; cbn [delete_handlers]; [exact T|].
    assert (T1 : tidy (rheap (fst (delete_one isident s a)))).
    { destruct a as [n|h]; cbn [delete_one]; [apply (del_key_tidy s m _ R T)|]. destruct (last_name s h (nchilds (hget (rheap s) 0))) as [[n|]|]; [| |exact T]; apply (del_key_tidy s m _ R T). }
    destruct (delete_one isident s a) as [s1 [u|e]] eqn:E1; [|exact T1]. destruct (delete_one_RI _ _ _ _ _ R E1) as (m1 & R1). apply (IH s1 m1 R1 T1).
  Qed.
  Definition no_get (o : rop) : bool := match o with RGet _ => false | _ => true end.
  Lemma reach_tidy : forall ops, forallb no_get ops = true -> tidy (rheap (fold_left (reg_step isident is_handler pony) ops rinit)).
  Proof.
    intros ops; rewrite <- (rev_involutive ops); induction (rev ops) as [|o r IH]; cbn [rev]; intros F; [apply tidy_empty|].
    rewrite forallb_app in F; apply andb_prop in F; destruct F as [F1 F2]. rewrite fold_left_app; cbn [fold_left].
    destruct (reach_RI (rev r)) as [m R]. specialize (IH F1). destruct o as [a k|a|names]; cbn [reg_step].
    - apply (add_tidy a k _ m R IH).
    - apply (del_tidy a _ m R IH).
    - discriminate.
  Qed.
End RegProofs.
