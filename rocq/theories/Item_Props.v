(** Properties C11-C13, C51, C53: executing, comparing and reading records. *)
From Verif Require Import Base Item_Model.
From Coq Require Import ZArith.
Local Open Scope string_scope.
Local Open Scope list_scope.

Section Props.
  Context {W : Type}.
  Notation item := (@item W).
  Notation fields_of := (list (string * fval)).

  Definition is_extract (e : event) : bool := match e with EExtract _ _ _ => true | EHandle _ _ => false end.

  (** A subsequence: some elements left out, order kept. *)
  Inductive subseq {A} : list A -> list A -> Prop :=
  | sub_nil : subseq [] []
  | sub_take : forall x a b, subseq a b -> subseq (x :: a) (x :: b)
  | sub_skip : forall x a b, subseq a b -> subseq a (x :: b).

  Definition extracted_names (ev : list event) : list (string * nat) :=
    flat_map (fun e => match e with EExtract n x _ => [(n, x)] | EHandle _ _ => [] end) ev.

  Lemma extract_events : forall inter fs (w : W) d w' d' ev,
    extract inter fs w d = (w', d', ev) ->
    forallb is_extract ev = true /\ subseq (extracted_names ev) (map (fun f => (fst f, fst (snd f))) fs).
  Proof.
    intros inter fs; induction fs as [|[n [x f]] r IH]; intros w d w' d' ev E; cbn [extract] in E.
    - injection E as <- <- <-; split; [reflexivity|constructor].
    - destruct (negb (dmem String.eqb d n) || inter).
      + destruct (f w d) as [w1 [v|e]].
        * destruct (extract inter r w1 (dset String.eqb d n v)) as [[w2 d2] ev2] eqn:E2; injection E as <- <- <-.
          destruct (IH _ _ _ _ _ E2) as [A B]; cbn; split; [exact A|constructor; exact B].
        * destruct (extract inter r w1 d) as [[w2 d2] ev2] eqn:E2; injection E as <- <- <-.
          destruct (IH _ _ _ _ _ E2) as [A B]; cbn; split; [exact A|constructor; exact B].
      + destruct (IH _ _ _ _ _ E) as [A B]; cbn; split; [exact A|constructor; exact B].
  Qed.

  Lemma call_handlers_spec : forall hs (w : W) d,
    call_handlers hs w d = (fold_left (fun w h => fst (snd h w d)) hs w, map (fun h => EHandle (fst h) d) hs).
  Proof.
    induction hs as [|[h f] r IH]; intros w d; cbn [call_handlers fold_left map fst snd]; [reflexivity|].
    unfold escaped; rewrite IH; reflexivity.
  Qed.

  (** What was given to the record, if anything was. *)
  Definition given {X : Type} (o : option (list X)) : list X := match o with Some l => l | None => [] end.

  (** C11: executing a record with data: no exception leaves; extractions come first, each registered extractor
      at most once and in order; then every handler exactly once, in order, each seeing all fields the executed
      record ends with.  Every handler runs from the world its predecessors left, whether they raised or not. *)
  Theorem C11_every_handler_once : forall inter (i : item) (w : W) d,
    fields i = Some d ->
    exists w1 ev1 w' i',
      item_call inter i w = ((w', i', ev1 ++ map (fun h => EHandle (fst h) (given (fields i'))) (given (handlers i))), Ok tt) /\
      extract inter (given (extra_fields i)) w d = (w1, given (fields i'), ev1) /\
      forallb is_extract ev1 = true /\
      subseq (extracted_names ev1) (map (fun f => (fst f, fst (snd f))) (given (extra_fields i))) /\
      w' = fold_left (fun w h => fst (snd h w (given (fields i')))) (given (handlers i)) w1 /\
      handlers i' = handlers i /\ extra_fields i' = extra_fields i.
  Proof.
    intros inter i w d E; unfold item_call; rewrite E.
    destruct (extract inter (get_extra_fields i) w d) as [[w1 d1] ev1] eqn:E1.
    rewrite call_handlers_spec; destruct (extract_events _ _ _ _ _ _ _ E1) as [A B].
    exists w1, ev1, (fold_left (fun w h => fst (snd h w d1)) (get_handlers i) w1), (mkItem (Some d1) (handlers i) (extra_fields i)).
    split; [reflexivity|]; split; [exact E1|]; split; [exact A|]; split; [exact B|]; split; [reflexivity|]; split; reflexivity.
  Qed.

  (** Without data (set_data never called) execution raises and no handler runs. *)
  Theorem C11_no_data : forall inter (i : item) (w : W), fields i = None ->
    item_call inter i w = ((w, i, []), Err EAttributeError).
  Proof. intros inter i w E; unfold item_call; rewrite E; reflexivity. Qed.

  (** *** C12 *)
  Definition has_time (i : item) (t : Z) : Prop := item_getitem i "time" = Ok (FTime t).
  Definition no_time (i : item) : Prop := item_getitem i "time" = Err EKeyError \/ item_getitem i "time" = Ok FNone.

  Lemma time_has : forall i t, has_time i t -> time i = FTime t.
  Proof.
    intros i t; unfold has_time, item_getitem, time, item_get; destruct (fields i) as [d|]; [|discriminate].
    destruct (dget String.eqb d "time"); [|discriminate]; intros H; injection H as ->; reflexivity.
  Qed.
  Lemma time_no : forall i, no_time i -> time i = FNone.
  Proof.
    intros i; unfold no_time, item_getitem, time, item_get; destruct (fields i) as [d|]; [|reflexivity].
    destruct (dget String.eqb d "time"); [|reflexivity]; intros [H|H]; [discriminate|injection H as ->; reflexivity].
  Qed.

  (** The six operators and the hash follow the times. *)
  Theorem C12_operators : forall (i j : item) s t h, has_time i s -> has_time j t ->
    (item_eq i (ORec j) = Ok (Z.eqb s t)) /\ (item_ne i (ORec j) = Ok (negb (Z.eqb s t))) /\
    (item_lt i (ORec j) = Ok (Z.ltb s t)) /\ (item_gt i (ORec j) = Ok (Z.ltb t s)) /\
    (item_le i (ORec j) = Ok (Z.leb s t)) /\ (item_ge i (ORec j) = Ok (Z.leb t s)) /\
    (s = t -> item_hash h i = item_hash h j).
  Proof.
    intros i j s t h Hi Hj; apply time_has in Hi, Hj.
    unfold item_eq, item_ne, item_lt, item_gt, item_le, item_ge, item_hash, compare, compare_or_raise; rewrite Hi, Hj.
    split; [|split; [|split; [|split; [|split; [|split]]]]]; try reflexivity; intros ->; reflexivity.
  Qed.

  (** Hence, on records with a time: exactly one of <, ==, > holds; < is transitive; <= is the union of < and ==;
      != is the negation of ==; a <= b and b <= a give a == b; equal records hash equally. *)
  Theorem C12_total_order : forall (a b c : item) r s t h, has_time a r -> has_time b s -> has_time c t ->
    ((item_lt a (ORec b) = Ok true /\ item_eq a (ORec b) = Ok false /\ item_gt a (ORec b) = Ok false) \/
     (item_lt a (ORec b) = Ok false /\ item_eq a (ORec b) = Ok true /\ item_gt a (ORec b) = Ok false) \/
     (item_lt a (ORec b) = Ok false /\ item_eq a (ORec b) = Ok false /\ item_gt a (ORec b) = Ok true)) /\
    (item_lt a (ORec b) = Ok true -> item_lt b (ORec c) = Ok true -> item_lt a (ORec c) = Ok true) /\
    (item_le a (ORec b) = Ok true <-> item_lt a (ORec b) = Ok true \/ item_eq a (ORec b) = Ok true) /\
    (item_ge a (ORec b) = Ok true <-> item_gt a (ORec b) = Ok true \/ item_eq a (ORec b) = Ok true) /\
    (item_gt a (ORec b) = item_lt b (ORec a)) /\
    (item_ne a (ORec b) = Ok true <-> item_eq a (ORec b) = Ok false) /\
    (item_le a (ORec b) = Ok true -> item_le b (ORec a) = Ok true -> item_eq a (ORec b) = Ok true) /\
    (item_eq a (ORec b) = Ok true -> item_hash h a = item_hash h b).
  Proof.
    intros a b c r s t h Ha Hb Hc.
    destruct (C12_operators a b r s h Ha Hb) as (E1 & E2 & E3 & E4 & E5 & E6 & E7).
    destruct (C12_operators b a s r h Hb Ha) as (F1 & F2 & F3 & F4 & F5 & F6 & F7).
    destruct (C12_operators b c s t h Hb Hc) as (G1 & G2 & G3 & _).
    destruct (C12_operators a c r t h Ha Hc) as (K1 & K2 & K3 & _).
    rewrite E1, E2, E3, E4, E5, E6, F3, F5, G3, K3.
    assert (forall x y, @Ok bool x = Ok y <-> x = y) as Inj by (intros x y; split; [intros H; injection H; auto|intros ->; reflexivity]).
    rewrite !Inj, !Z.ltb_lt, !Z.leb_le, !Z.ltb_ge, !Z.eqb_eq, !Z.eqb_neq, negb_true_iff, Z.eqb_neq.
    split; [destruct (Z.lt_trichotomy r s) as [H|[H|H]]; lia|].
    split; [lia|]; split; [lia|]; split; [lia|]; split; [reflexivity|]; split; [tauto|]; split; [lia|].
    exact E7.
  Qed.

  (** A missing time, or a right operand that is no record: no ordering, never equal, always different. *)
  Theorem C12_incomparable : forall (i : item) o,
    no_time i \/ (exists j, o = ORec j /\ no_time j) \/ (exists n, o = OOther n) ->
    item_lt i o = Err ETypeError /\ item_gt i o = Err ETypeError /\
    item_le i o = Err ETypeError /\ item_ge i o = Err ETypeError /\
    item_eq i o = Ok false /\ item_ne i o = Ok true.
  Proof.
    intros i o H; unfold item_eq, item_ne, item_lt, item_gt, item_le, item_ge, compare, compare_or_raise.
    destruct H as [H|[(j & -> & H)|(n & ->)]].
    - rewrite (time_no _ H); destruct o; repeat split; reflexivity.
    - rewrite (time_no _ H); destruct (time i); repeat split; reflexivity.
    - repeat split; reflexivity.
  Qed.

  (** *** C13 *)
  Lemma extract_keeps : forall inter fs (w : W) d w' d' ev k,
    extract inter fs w d = (w', d', ev) -> ~ In k (map fst fs) -> dget String.eqb d' k = dget String.eqb d k.
  Proof.
    intros inter fs; induction fs as [|[n [x f]] r IH]; intros w d w' d' ev k E Hk; cbn [extract] in E.
    - injection E as <- <- <-; reflexivity.
    - cbn [map fst In] in Hk.
      assert (n <> k /\ ~ In k (map fst r)) as [Hn Hr] by tauto.
      destruct (negb (dmem String.eqb d n) || inter).
      + destruct (f w d) as [w1 [v|e]].
        * destruct (extract inter r w1 (dset String.eqb d n v)) as [[w2 d2] ev2] eqn:E2; injection E as <- <- <-.
          rewrite (IH _ _ _ _ _ _ E2 Hr); apply (dget_dset_other String.eqb String.eqb_spec); exact Hn.
        * destruct (extract inter r w1 d) as [[w2 d2] ev2] eqn:E2; injection E as <- <- <-; apply (IH _ _ _ _ _ _ E2 Hr).
      + apply (IH _ _ _ _ _ _ E Hr).
  Qed.

  (** Field intersection off: what the record had is kept. *)
  Theorem C13_existing_kept : forall fs (w : W) d w' d' ev k v,
    extract false fs w d = (w', d', ev) -> dget String.eqb d k = Some v -> dget String.eqb d' k = Some v.
  Proof.
    intros fs; induction fs as [|[n [x f]] r IH]; intros w d w' d' ev k v E Hk; cbn [extract] in E.
    - injection E as <- <- <-; exact Hk.
    - rewrite orb_false_r in E; destruct (dmem String.eqb d n) eqn:M; cbn [negb] in E; [apply (IH _ _ _ _ _ _ _ E Hk)|].
      destruct (f w d) as [w1 [u|e]].
      + destruct (extract false r w1 (dset String.eqb d n u)) as [[w2 d2] ev2] eqn:E2; injection E as <- <- <-.
        apply (IH _ _ _ _ _ _ _ E2); rewrite (dget_dset_other String.eqb String.eqb_spec); [exact Hk|].
        intros ->; apply (dmem_false String.eqb String.eqb_spec) in M; apply M.
        apply (dmem_true String.eqb String.eqb_spec); unfold dmem; rewrite Hk; reflexivity.
      + destruct (extract false r w1 d) as [[w2 d2] ev2] eqn:E2; injection E as <- <- <-; apply (IH _ _ _ _ _ _ _ E2 Hk).
  Qed.

  Lemma extract_app : forall inter a b (w : W) d,
    extract inter (a ++ b) w d =
      (let '(w1, d1, e1) := extract inter a w d in let '(w2, d2, e2) := extract inter b w1 d1 in (w2, d2, e1 ++ e2)).
  Proof.
    intros inter a b; induction a as [|[n [x f]] a IH]; intros w d; cbn [app extract].
    - destruct (extract inter b w d) as [[w2 d2] e2]; reflexivity.
    - destruct (negb (dmem String.eqb d n) || inter); [|apply IH].
      destruct (f w d) as [w1 [v|e]]; rewrite IH.
      + destruct (extract inter a w1 (dset String.eqb d n v)) as [[w2 d2] e2]; destruct (extract inter b w2 d2) as [[w3 d3] e3]; reflexivity.
      + destruct (extract inter a w1 d) as [[w2 d2] e2]; destruct (extract inter b w2 d2) as [[w3 d3] e3]; reflexivity.
  Qed.

  (** What every field of the result is.  Names in the collection are distinct (it is a dictionary).
      [d1], [w1]: fields and world when the turn of field [n] comes. *)
  Theorem C13_field_value : forall inter a n x f b (w : W) d w1 d1 e1 w' d' ev,
    NoDup (map fst (a ++ (n, (x, f)) :: b)) ->
    extract inter a w d = (w1, d1, e1) ->
    extract inter (a ++ (n, (x, f)) :: b) w d = (w', d', ev) ->
    dget String.eqb d' n =
      (if negb (dmem String.eqb d n) || inter
       then match snd (f w1 d1) with Ok v => Some v | Err _ => dget String.eqb d n end
       else dget String.eqb d n).
  Proof.
    intros inter a n x f b w d w1 d1 e1 w' d' ev N E1 E.
    rewrite map_app in N; cbn [map fst] in N.
    assert (~ In n (map fst a) /\ ~ In n (map fst b)) as [Na Nb].
    { apply NoDup_remove_2 in N; rewrite in_app_iff in N; tauto. }
    rewrite extract_app, E1 in E; cbn [extract] in E.
    pose proof (extract_keeps _ _ _ _ _ _ _ n E1 Na) as Eq.
    assert (dmem String.eqb d1 n = dmem String.eqb d n) as Em by (unfold dmem; rewrite Eq; reflexivity).
    rewrite Em in E; destruct (negb (dmem String.eqb d n) || inter).
    - destruct (f w1 d1) as [w2 [v|e]]; cbn [snd].
      + destruct (extract inter b w2 (dset String.eqb d1 n v)) as [[w3 d3] e3] eqn:E3; injection E as <- <- <-.
        rewrite (extract_keeps _ _ _ _ _ _ _ n E3 Nb); apply (dget_dset_same String.eqb String.eqb_spec).
      + destruct (extract inter b w2 d1) as [[w3 d3] e3] eqn:E3; injection E as <- <- <-.
        rewrite (extract_keeps _ _ _ _ _ _ _ n E3 Nb); exact Eq.
    - destruct (extract inter b w1 d1) as [[w3 d3] e3] eqn:E3; injection E as <- <- <-.
      rewrite (extract_keeps _ _ _ _ _ _ _ n E3 Nb); exact Eq.
  Qed.

  (** Who is called: exactly the extractors of the fields the record did not have (all of them with fields_intersection), once each, in
      order, *)
  Theorem C13_called : forall inter fs (w : W) d w' d' ev, NoDup (map fst fs) -> extract inter fs w d = (w', d', ev) ->
    extracted_names ev = map (fun f => (fst f, fst (snd f))) (filter (fun f => negb (dmem String.eqb d (fst f)) || inter) fs).
  Proof.
    intros inter fs; induction fs as [|[n [x f]] r IH]; intros w d w' d' ev N E; cbn [extract] in E.
    - injection E as <- <- <-; reflexivity.
    - cbn [map fst] in N; inversion_clear N as [|? ? Nn Nr]; cbn [filter fst].
      assert (Same : forall v, filter (fun f : string * (nat * extractor) => negb (dmem String.eqb (dset String.eqb d n v) (fst f)) || inter) r =
                               filter (fun f => negb (dmem String.eqb d (fst f)) || inter) r).
      { intros v; apply filter_ext_in; intros [m y] Hm; cbn [fst]; unfold dmem.
        rewrite (dget_dset_other String.eqb String.eqb_spec); [reflexivity|]. intros ->; apply Nn, (in_map fst _ _ Hm). }
      destruct (negb (dmem String.eqb d n) || inter).
      + destruct (f w d) as [w1 [v|e]].
        * destruct (extract inter r w1 (dset String.eqb d n v)) as [[w2 d2] ev2] eqn:E2; injection E as <- <- <-.
          pose proof (IH _ _ _ _ _ Nr E2) as A; rewrite Same in A; cbn [extracted_names flat_map app map fst snd]; f_equal; exact A.
        * destruct (extract inter r w1 d) as [[w2 d2] ev2] eqn:E2; injection E as <- <- <-.
          cbn [extracted_names flat_map app map fst snd]; f_equal; exact (IH _ _ _ _ _ Nr E2).
      + exact (IH _ _ _ _ _ Nr E).
  Qed.
  (** and each of them sees the fields as the extractors before it left them. *)
  Theorem C13_sees : forall inter a n x f b (w : W) d w1 d1 e1 w' d' ev,
    NoDup (map fst (a ++ (n, (x, f)) :: b)) ->
    extract inter a w d = (w1, d1, e1) -> extract inter (a ++ (n, (x, f)) :: b) w d = (w', d', ev) ->
    negb (dmem String.eqb d n) || inter = true -> exists e2, ev = e1 ++ EExtract n x d1 :: e2.
  Proof.
    intros inter a n x f b w d w1 d1 e1 w' d' ev N E1 E C.
    rewrite map_app in N; cbn [map fst] in N.
    assert (Na : ~ In n (map fst a)) by (apply NoDup_remove_2 in N; rewrite in_app_iff in N; tauto).
    rewrite extract_app, E1 in E; cbn [extract] in E.
    pose proof (extract_keeps _ _ _ _ _ _ _ n E1 Na) as Eq.
    assert (dmem String.eqb d1 n = dmem String.eqb d n) as Em by (unfold dmem; rewrite Eq; reflexivity).
    rewrite Em, C in E. destruct (f w1 d1) as [w2 [v|e]].
    - destruct (extract inter b w2 (dset String.eqb d1 n v)) as [[w3 d3] e3]; injection E as <- <- <-; exists e3; reflexivity.
    - destruct (extract inter b w2 d1) as [[w3 d3] e3]; injection E as <- <- <-; exists e3; reflexivity.
  Qed.

  (** Every other field is untouched, and no field disappears. *)
  Theorem C13_other_fields : forall inter fs (w : W) d w' d' ev,
    extract inter fs w d = (w', d', ev) ->
    (forall k, ~ In k (map fst fs) -> dget String.eqb d' k = dget String.eqb d k) /\
    (forall k, dget String.eqb d k <> None -> dget String.eqb d' k <> None).
  Proof.
    intros inter fs w d w' d' ev E; split; [intros k Hk; apply (extract_keeps _ _ _ _ _ _ _ k E Hk)|].
    revert w d w' d' ev E; induction fs as [|[n [x f]] r IH]; intros w d w' d' ev E k Hk; cbn [extract] in E.
    - injection E as <- <- <-; exact Hk.
    - destruct (negb (dmem String.eqb d n) || inter); [|apply (IH _ _ _ _ _ E k Hk)].
      destruct (f w d) as [w1 [v|e]].
      + destruct (extract inter r w1 (dset String.eqb d n v)) as [[w2 d2] ev2] eqn:E2; injection E as <- <- <-.
        apply (IH _ _ _ _ _ E2); rewrite (dget_dset String.eqb String.eqb_spec); destruct (String.eqb k n); [discriminate|exact Hk].
      + destruct (extract inter r w1 d) as [[w2 d2] ev2] eqn:E2; injection E as <- <- <-; apply (IH _ _ _ _ _ E2 k Hk).
  Qed.

  (** A field whose extractor raises (and does nothing else) might as well not be registered. *)
  Theorem C13_raising_extractor : forall inter a n x f b (w : W) d,
    (forall w d, exists e, f w d = (w, Err e)) ->
    let '(w1, d1, _) := extract inter (a ++ (n, (x, f)) :: b) w d in
    let '(w2, d2, _) := extract inter (a ++ b) w d in w1 = w2 /\ d1 = d2.
  Proof.
    intros inter a n x f b w d F; rewrite !extract_app.
    destruct (extract inter a w d) as [[w1 d1] e1]; cbn [extract].
    destruct (F w1 d1) as (e & ->); destruct (negb (dmem String.eqb d1 n) || inter);
      destruct (extract inter b w1 d1) as [[w2 d2] e2]; split; reflexivity.
  Qed.

  (** *** C53: data, handlers and extra fields are given to a record one by one, in any order; each call replaces its own part and leaves the others. *)
  Inductive setting : Type := SData (d : list (string * fval)) | SHandlers (h : list (nat * @handler W)) | SExtra (e : list (string * (nat * @extractor W))).
  Definition give (i : item) (s : setting) : item := match s with SData d => set_data i d | SHandlers h => set_handlers i h | SExtra e => set_extra_fields i e end.
  (** The value given last. *)
  Definition last_given {A} (pick : setting -> option A) (l : list setting) : option A :=
    fold_left (fun o s => match pick s with Some a => Some a | None => o end) l None.
  Theorem C53_setters : forall l, let i := fold_left give l new_item in
    item_items i = match last_given (fun s => match s with SData d => Some d | _ => None end) l with Some d => d | None => [] end /\
    get_handlers i = match last_given (fun s => match s with SHandlers h => Some h | _ => None end) l with Some h => h | None => [] end /\
    get_extra_fields i = match last_given (fun s => match s with SExtra e => Some e | _ => None end) l with Some e => e | None => [] end.
  Proof.
    intros l; cbv zeta; unfold last_given, item_items, get_handlers, get_extra_fields.
    assert (G : forall (i : item), let j := fold_left give l i in
      fields j = fold_left (fun o s => match (match s with SData d => Some d | _ => None end) with Some a => Some a | None => o end) l (fields i) /\
      handlers j = fold_left (fun o s => match (match s with SHandlers h => Some h | _ => None end) with Some a => Some a | None => o end) l (handlers i) /\
      extra_fields j = fold_left (fun o s => match (match s with SExtra e => Some e | _ => None end) with Some a => Some a | None => o end) l (extra_fields i)).
    { induction l as [|s l IH]; intros i; cbn [fold_left]; [repeat split|]. destruct (IH (give i s)) as (A & B & C); cbv zeta.
      rewrite A, B, C; destruct s; repeat split. }
    destruct (G new_item) as (A & B & C); rewrite A, B, C; repeat split.
  Qed.
  (** *** C53: a record reads as the dictionary it was given and can not be written. *)
  Theorem C53_reads_as_dict : forall (i : item) d k v default, NoDup (dkeys d) ->
    let j := set_data i d in
    (item_getitem j k = Ok v <-> dget String.eqb d k = Some v) /\
    (item_getitem j k = Err EKeyError <-> dget String.eqb d k = None) /\
    (item_contains j k = true <-> In k (item_keys j)) /\
    (item_get j k default = match item_getitem j k with Ok v => v | Err _ => default end) /\
    (item_items j = d) /\ (item_keys j = map fst (item_items j)) /\ (item_values j = map snd (item_items j)) /\
    (item_len j = length (item_keys j)) /\ NoDup (item_keys j) /\
    (In (k, v) (item_items j) <-> item_getitem j k = Ok v).
  Proof.
    intros i d k v default N j; subst j.
    unfold item_getitem, item_contains, item_get, item_items, item_keys, item_values, item_len, set_data; cbn [fields].
    split; [destruct (dget String.eqb d k); split; intros H; try discriminate; injection H as ->; reflexivity|].
    split; [destruct (dget String.eqb d k); split; intros H; try discriminate; reflexivity|].
    split; [apply (dmem_true String.eqb String.eqb_spec)|].
    split; [destruct (dget String.eqb d k); reflexivity|].
    split; [reflexivity|]; split; [reflexivity|]; split; [reflexivity|].
    split; [symmetry; apply map_length|]; split; [exact N|].
    destruct (dget String.eqb d k) as [u|] eqn:E; split; intros H.
    - apply (In_dget String.eqb String.eqb_spec) in H; [congruence|exact N].
    - injection H as ->; apply (dget_In String.eqb String.eqb_spec); exact E.
    - apply (In_dget String.eqb String.eqb_spec) in H; [congruence|exact N].
    - discriminate.
  Qed.

  Theorem C53_empty_before_data : forall k default,
    let j := @new_item W in
    item_getitem j k = Err EKeyError /\ item_contains j k = false /\ item_get j k default = default /\
    item_items j = [] /\ item_keys j = [] /\ item_values j = [] /\ item_len j = 0.
  Proof. intros k default; repeat split. Qed.

  Theorem C53_read_only : forall (i : item) k v,
    item_setitem i k v = (i, Err ERewritingLog) /\ item_delitem i k = (i, Err ERewritingLog).
  Proof. intros i k v; split; reflexivity. Qed.
End Props.

(** *** C51 *)
Section Container.
  Context {V : Type}.
  (** The overlay: own fields first, then defaults. *)
  Definition overlay (own defaults : list (string * V)) (k : string) : option V :=
    match dget String.eqb own k with Some v => Some v | None => dget String.eqb defaults k end.

  Lemma items_get : forall own defaults k, dget String.eqb (cont_items own defaults) k = overlay own defaults k.
  Proof.
    intros own defaults k; unfold cont_items, overlay.
    assert (forall l1 l2 : list (string * V), dget String.eqb (l1 ++ l2) k = match dget String.eqb l1 k with Some v => Some v | None => dget String.eqb l2 k end) as A.
    { induction l1 as [|[k' v'] l1 IH]; intros l2; cbn [app dget]; [reflexivity|]; destruct (String.eqb k k'); [reflexivity|apply IH]. }
    rewrite A; destruct (dget String.eqb own k) as [v|] eqn:E; [reflexivity|].
    induction defaults as [|[k' v'] r IH]; cbn [filter dget fst]; [reflexivity|].
    destruct (String.eqb_spec k k') as [Eq|Hne].
    - subst k'; unfold dmem; rewrite E; cbn [negb dget]; rewrite String.eqb_refl; reflexivity.
    - destruct (negb (dmem String.eqb own k')); cbn [dget]; [destruct (String.eqb_spec k k'); [contradiction|exact IH]|exact IH].
  Qed.

  Lemma iter_items : forall own defaults, cont_iter own defaults = map fst (@cont_items V own defaults).
  Proof.
    intros own defaults; unfold cont_iter, cont_items; rewrite map_app; unfold dkeys; f_equal.
    induction defaults as [|[k v] r IH]; cbn [map filter fst]; [reflexivity|].
    destruct (negb (dmem String.eqb own k)); cbn [map fst]; rewrite IH; reflexivity.
  Qed.

  Theorem C51_overlay : forall own defaults k v,
    NoDup (dkeys own) -> NoDup (dkeys defaults) ->
    (In (k, v) (@cont_items V own defaults) <-> overlay own defaults k = Some v) /\
    cont_iter own defaults = map fst (cont_items own defaults) /\
    NoDup (cont_iter own defaults) /\
    (cont_in own defaults k = true <-> overlay own defaults k <> None).
  Proof.
    intros own defaults k v N1 N2.
    assert (NoDup (dkeys (cont_items own defaults))) as N.
    { unfold dkeys; rewrite <- iter_items; unfold cont_iter.
      assert (forall (l1 l2 : list string), NoDup l1 -> NoDup l2 -> (forall x, In x l1 -> ~ In x l2) -> NoDup (l1 ++ l2)) as NA.
      { induction l1 as [|x l1 IH]; intros l2 A B D; cbn [app]; [exact B|]; inversion A as [|y l Hx A']; subst.
        constructor; [rewrite in_app_iff; intros [H|H]; [contradiction|apply (D x (or_introl eq_refl) H)]|].
        apply IH; [exact A'|exact B|]; intros y Hy; apply D; right; exact Hy. }
      apply NA; [exact N1|apply NoDup_filter; exact N2|].
      intros x Hx Hf; apply filter_In in Hf; destruct Hf as [_ Hf]; apply negb_true_iff, (dmem_false String.eqb String.eqb_spec) in Hf; contradiction. }
    split; [|split; [apply iter_items|split]].
    - rewrite <- items_get; split; [apply (In_dget String.eqb String.eqb_spec); exact N|apply (dget_In String.eqb String.eqb_spec)].
    - rewrite iter_items; exact N.
    - unfold cont_in; rewrite iter_items, <- items_get.
      rewrite existsb_exists; split.
      + intros (x & Hx & E); apply String.eqb_eq in E; subst x.
        intros H; apply (dget_None String.eqb String.eqb_spec) in H; contradiction.
      + intros H; exists k; split; [|apply String.eqb_refl].
        destruct (in_dec string_dec k (map fst (cont_items own defaults))) as [Hi|Hi]; [exact Hi|].
        exfalso; apply H; apply (dget_None String.eqb String.eqb_spec); exact Hi.
  Qed.

  (** Own fields come first, in their order; and a later change of the defaults shows through. *)
  Theorem C51_live : forall own defaults k v,
    firstn (length own) (cont_iter own defaults) = dkeys own /\
    overlay own (dset String.eqb defaults k v) k = match dget String.eqb own k with Some u => Some u | None => Some (v : V) end.
  Proof.
    intros own defaults k v; split.
    - unfold cont_iter; replace (length own) with (length (dkeys own)) by apply map_length.
      rewrite firstn_app, Nat.sub_diag, firstn_all, firstn_O, app_nil_r; reflexivity.
    - unfold overlay; rewrite (dget_dset_same String.eqb String.eqb_spec); reflexivity.
  Qed.
End Container.

(** *** Concrete cases; the world is a list of numbers. *)
Local Open Scope string_scope.
Local Open Scope list_scope.
Definition bad_handler (w : list nat) (d : list (string * fval)) : list nat * Res unit := (1 :: w, Err (EUser 7)).
Definition good_handler (w : list nat) (d : list (string * fval)) : list nat * Res unit := (length d :: w, Ok tt).
Definition ip (w : list nat) (d : list (string * fval)) : list nat * Res fval := (w, Ok (FOther 127)).
Definition broken (w : list nat) (d : list (string * fval)) : list nat * Res fval := (w, Err (EUser 8)).
Definition ex_item : item :=
  mkItem (Some [("time", FTime 5); ("level", FOther 3)]) (Some [(1, bad_handler); (2, good_handler)])
         (Some [("level", (11, ip)); ("oops", (12, broken)); ("ip", (13, ip))]).

Example C11_case :
  item_call false ex_item [] =
    (([3; 1], mkItem (Some [("time", FTime 5); ("level", FOther 3); ("ip", FOther 127)]) (handlers ex_item) (extra_fields ex_item),
      [EExtract "oops" 12 [("time", FTime 5); ("level", FOther 3)]; EExtract "ip" 13 [("time", FTime 5); ("level", FOther 3)];
       EHandle 1 [("time", FTime 5); ("level", FOther 3); ("ip", FOther 127)]; EHandle 2 [("time", FTime 5); ("level", FOther 3); ("ip", FOther 127)]]), Ok tt).
Proof. reflexivity. Qed.

Example C13_case_intersection :
  item_items (snd (fst (fst (item_call true ex_item [])))) = [("time", FTime 5); ("level", FOther 127); ("ip", FOther 127)].
Proof. reflexivity. Qed.

Example C12_case :
  has_time ex_item 5 /\ item_lt ex_item (ORec (set_data ex_item [("time", FTime 6)])) = Ok true /\
  no_time (@new_item nat) /\ item_eq (@new_item nat) (ORec new_item) = Ok false.
Proof. split; [reflexivity|]; split; [reflexivity|]; split; [left; reflexivity|reflexivity]. Qed.

(** == is not reflexive: a record without time differs from itself. *)
Theorem C12_reflexive_refuted : exists i : @item nat, item_eq i (ORec i) = Ok false /\ item_ne i (ORec i) = Ok true.
Proof. exists new_item; split; reflexivity. Qed.

Example C51_case : cont_items [("a", 1); ("b", 2)] [("c", 3); ("a", 4)] = [("a", 1); ("b", 2); ("c", 3)].
Proof. reflexivity. Qed.

Example C53_setters_case : forall d h, item_items (fold_left give [SData []; SHandlers h; SData d; SExtra []] (@new_item nat)) = d /\
  get_handlers (fold_left give [SData []; SHandlers h; SData d; SExtra []] (@new_item nat)) = h.
Proof. intros; split; reflexivity. Qed.
Example C53_case : item_getitem ex_item "level" = Ok (FOther 3) /\ item_contains ex_item "ip" = false /\ item_len ex_item = 2.
Proof. repeat split. Qed.

Print Assumptions C11_every_handler_once.
Print Assumptions C11_no_data.
Print Assumptions C12_operators.
Print Assumptions C12_total_order.
Print Assumptions C12_incomparable.
Print Assumptions C12_reflexive_refuted.
Print Assumptions C13_existing_kept.
Print Assumptions C13_field_value.
Print Assumptions C13_called.
Print Assumptions C13_sees.
Print Assumptions C13_other_fields.
Print Assumptions C13_raising_extractor.
Print Assumptions C51_overlay.
Print Assumptions C51_live.
Print Assumptions C53_setters.
Print Assumptions C53_reads_as_dict.
Print Assumptions C53_empty_before_data.
Print Assumptions C53_read_only.
