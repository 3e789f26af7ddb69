(** * C62: the class field and the registry of extra fields *)
From Verif Require Import Base Sig_Model Sig_Props Field_Model.
From Verif Require Json_Model Fmt_Model Fmt_Spec Fmt_Props Fmt_Examples.
Local Open Scope string_scope.
Local Open Scope list_scope.

Section Props.
  Variable isident : string -> bool.
  Hypothesis dot_no : isident "." = false.

  (** ** Specification *)
  (** A function of one plain argument: one positional parameter without default, nothing else that the check sees. *)
  Definition one_argument (d : pydef) : Prop := length (po d) + length (pk d) = 1 /\ pk_d d = [] /\ ko_d d = [] /\ star d = None /\ star2 d = None.
  (** What inspect can meet. *)
  Definition regular (o : obj) : Prop := o = NotCallable \/ o = Unreadable \/ exists d, o = Callable (params d).
  Definition usable (o : obj) : Prop := exists d, o = Callable (params d) /\ one_argument d.
  Definition legal (n : string) : Prop := isident n = true /\ (forall r, n <> String "_" r) /\ ~ Fmt_Spec.standard n.
  Definition fine (v : offered) : Prop := exists o, its_get_data v = Some o /\ usable o.
  Definition regular_offer (v : offered) : Prop := forall o, its_get_data v = Some o -> regular o.

  Lemma handler_usable : forall o, regular o -> (is_handler isident o true = Ok true /\ usable o) \/
    ((is_handler isident o true = Ok false \/ is_handler isident o true = Err EValueError) /\ ~ usable o).
  Proof.
    intros o [-> |[-> |(d & ->)]].
    - right. split; [right; reflexivity|]. intros (d & H & _); discriminate.
    - right. split; [right; reflexivity|]. intros (d & H & _); discriminate.
    - pose proof (C47_handler isident dot_no d true) as H. destruct (C47_total isident _ ["."] _ (eq_refl (Callable (params d)))) as (_ & _ & T). destruct (T true) as ([|] & E).
      + left. split; [exact E|]. exists d. split; [reflexivity|]. apply H; exact E.
      + right. split; [left; exact E|]. intros (d' & Ed & O). injection Ed as Ed. rewrite Ed in E.
        rewrite (proj2 (C47_handler isident dot_no d' true) O) in E. discriminate.
  Qed.

  (** ** The class *)
  Section Class.
    Variables W Log Val : Type.
    Notation fn := (fn W Val).
    (** A field is created exactly from a usable extractor and no converter or a usable one; anything else is a ValueError. *)
    Theorem C62_created : forall (e : fn Log) (c : option (fn Val)), regular (shape _ _ _ e) -> (forall f, c = Some f -> regular (shape _ _ _ f)) ->
      (usable (shape _ _ _ e) /\ (forall f, c = Some f -> usable (shape _ _ _ f)) /\
       exists f, new_field isident W Log Val e c = Ok f) \/
      (~ (usable (shape _ _ _ e) /\ (forall f, c = Some f -> usable (shape _ _ _ f))) /\ new_field isident W Log Val e c = Err EValueError).
    Proof.
      intros e c Re Rc. unfold new_field, get_extractor, get_converter.
      destruct (handler_usable _ Re) as [(He & Ue)|(He & Ue)].
      - assert (E : forall X (k : fn Log -> Res X), bindR (match shape W Val Log e with NotCallable => Err EValueError
            | o => match is_handler isident o true with Ok true => Ok e | Ok false => Err EValueError | Err x => Err x end end) k = k e).
        { intros X k. destruct (shape W Val Log e); [discriminate He| |]; rewrite He; reflexivity. }
        rewrite E. destruct c as [f|].
        + destruct (handler_usable _ (Rc f eq_refl)) as [(Hf & Uf)|(Hf & Uf)].
          * left. split; [exact Ue|]. split; [intros g Hg; injection Hg as <-; exact Uf|].
            destruct (shape W Val Val f); [discriminate Hf| |]; rewrite Hf; cbn [bindR]; eexists; reflexivity.
          * right. split; [intros (_ & U); apply Uf, U; reflexivity|]. destruct (shape W Val Val f); [reflexivity| |]; destruct Hf as [-> | ->]; reflexivity.
        + left. split; [exact Ue|]. split; [intros f; discriminate|]. cbn [bindR]. eexists; reflexivity.
      - right. split; [intros (U & _); exact (Ue U)|]. destruct (shape W Val Log e); [reflexivity| |]; destruct He as [-> | ->]; reflexivity.
    Qed.
    (** get_data calls the extractor once with the record, then, if it answered, the converter once with the answer; without a converter the answer is given as it is. *)
    Theorem C62_get_data : forall (e : fn Log) c f, new_field isident W Log Val e c = Ok f -> forall w l,
      get_data W Log Val f w l =
      match behave _ _ _ e w l with
      | (w1, Err x) => (w1, Err x)
      | (w1, Ok v) => match c with None => (w1, Ok v) | Some k => behave _ _ _ k w1 v end
      end.
    Proof.
      intros e c f H w l. unfold new_field in H. destruct (get_extractor isident W Val e) as [e'|] eqn:Ee; cbn [bindR] in H; [|discriminate].
      assert (e' = e) as ->.
      { unfold get_extractor in Ee. destruct (shape W Val Log e); [discriminate| |]; match type of Ee with match ?x with _ => _ end = _ => destruct x as [[|]|] end; congruence. }
      destruct (get_converter isident W Val c) as [k|] eqn:Ek; cbn [bindR] in H; [|discriminate]. injection H as <-. unfold get_data; cbn [extractor converter].
      destruct (behave W Val Log e w l) as [w1 [v|x]]; [|reflexivity]. unfold get_converter in Ek. destruct c as [g|]; [|injection Ek as <-; reflexivity].
      destruct (shape W Val Val g); [discriminate| |]; match type of Ek with match ?x with _ => _ end = _ => destruct x as [[|]|] end; congruence.
    Qed.
  End Class.

  (** ** The registry *)
  Lemma standard_forbidden : forall n, existsb (String.eqb n) forbidden_names = true <-> Fmt_Spec.standard n.
  Proof.
    intros n. rewrite existsb_exists. split.
    - intros (m & I & E). apply String.eqb_eq in E; subst m. unfold Fmt_Spec.standard. cbn [In forbidden_names] in *. tauto.
    - intros S. exists n. split; [unfold Fmt_Spec.standard in S; cbn [In forbidden_names] in *; tauto|apply String.eqb_refl].
  Qed.
  Lemma underscore : forall n, starts_with_underscore n = true <-> exists r, n = String "_" r.
  Proof.
    intros [|c r]; cbn; [split; [discriminate|intros (r & H); discriminate]|].
    split.
    - intros H. destruct c as [[|] [|] [|] [|] [|] [|] [|] [|]]; try discriminate H. exists r; reflexivity.
    - intros (r' & H). injection H as -> _. reflexivity.
  Qed.
  Lemma possible_legal : forall n, possible_extra_field_name isident n = true <-> legal n.
  Proof.
    intros n. unfold possible_extra_field_name, legal. destruct (isident n); cbn [negb]; [|split; [discriminate|intros (H & _); discriminate]].
    pose proof (underscore n) as U. destruct (starts_with_underscore n).
    - split; [discriminate|]. intros (_ & H & _). destruct (proj1 U eq_refl) as (r & ->). elim (H r); reflexivity.
    - pose proof (standard_forbidden n) as F. destruct (existsb (String.eqb n) forbidden_names).
      + split; [discriminate|]. intros (_ & _ & H). elim H. apply F; reflexivity.
      + split; [|reflexivity]. intros _. split; [reflexivity|]. split; [intros r ->; assert (false = true) by (apply U; exists r; reflexivity); discriminate|].
        intros S. apply F in S; discriminate.
  Qed.
  Lemma check_spec : forall n v, regular_offer v ->
    (fine v /\ legal n /\ check_field isident n v = Ok tt) \/ (~ fine v /\ check_field isident n v = Err EValueError) \/ (fine v /\ ~ legal n /\ check_field isident n v = Err ENameError).
  Proof.
    intros n v R. unfold check_field, fine. destruct (its_get_data v) as [o|] eqn:G.
    - destruct (handler_usable o (R o G)) as [(-> & U)|(H & U)].
      + pose proof (possible_legal n) as P. destruct (possible_extra_field_name isident n).
        * left. split; [exists o; auto|]. split; [apply P; reflexivity|reflexivity].
        * right; right. split; [exists o; auto|]. split; [intros L; apply P in L; discriminate|reflexivity].
      + right; left. split; [intros (o' & E & U'); injection E as <-; exact (U U')|]. destruct H as [-> | ->]; reflexivity.
    - right; left. split; [intros (o & E & _); discriminate|reflexivity].
  Qed.

  (** add_fields with keyword arguments kw as a change of one dictionary. *)
  Definition added (d d' : list (string * offered)) (kw : list (string * offered)) (x : Res unit) : Prop :=
    exists done rest, kw = done ++ rest /\ Forall (fun nv => legal (fst nv) /\ fine (snd nv)) done /\
      (forall n, dget String.eqb d' n = match dget String.eqb done n with Some v => Some v | None => dget String.eqb d n end) /\
      ((rest = [] /\ x = Ok tt) \/
       (exists n v r, rest = (n, v) :: r /\ ((~ fine v /\ x = Err EValueError) \/ (fine v /\ ~ legal n /\ x = Err ENameError)))).
  (** delete_fields with names as a change of one dictionary. *)
  Definition deleted (d d' : list (string * offered)) (names : list (option string)) (x : Res unit) : Prop :=
    exists gone rest, names = map Some gone ++ rest /\ NoDup gone /\ (forall n, In n gone -> In n (dkeys d)) /\
      (forall n, dget String.eqb d' n = if in_dec string_dec n gone then None else dget String.eqb d n) /\
      ((rest = [] /\ x = Ok tt) \/
       (x = Err EKeyError /\ ((exists r, rest = None :: r) \/ exists n r, rest = Some n :: r /\ (In n gone \/ ~ In n (dkeys d))))).

  Lemma add_spec : forall kw d, NoDup (dkeys kw) -> Forall (fun nv => regular_offer (snd nv)) kw ->
    added d (fst (add_loop isident d kw)) kw (snd (add_loop isident d kw)).
  Proof.
    induction kw as [|[n v] kw IH]; intros d ND R; cbn [add_loop].
    - exists [], []. split; [reflexivity|]. split; [constructor|]. split; [intros n; reflexivity|left; split; reflexivity].
    - cbn [dkeys map fst] in ND. inversion ND as [|y m N ND']; subst. inversion R as [|y m Rv R']; subst. cbn [snd] in Rv.
      destruct (check_spec n v Rv) as [(F & L & ->)|[(F & ->)|(F & L & ->)]].
      + destruct (IH (dset String.eqb d n v) ND' R') as (done & rest & E & G & Lk & X). exists ((n, v) :: done), rest. split; [rewrite E; reflexivity|].
        split; [constructor; [split; assumption|exact G]|]. split; [|exact X]. intros q. rewrite Lk. cbn [dget]. destruct (String.eqb_spec q n) as [->|Nq].
        * destruct (dget String.eqb done n) as [v'|] eqn:D; [|apply (dget_dset_same String.eqb String.eqb_spec)]. elim N. rewrite E. unfold dkeys. rewrite map_app. apply in_or_app; left.
          apply (dget_In String.eqb String.eqb_spec) in D. apply (in_map fst) in D. exact D.
        * destruct (dget String.eqb done q); [reflexivity|]. apply (dget_dset_other String.eqb String.eqb_spec). congruence.
      + exists [], ((n, v) :: kw). split; [reflexivity|]. split; [constructor|]. split; [intros q; reflexivity|]. right. exists n, v, kw. split; [reflexivity|]. left; split; [exact F|reflexivity].
      + exists [], ((n, v) :: kw). split; [reflexivity|]. split; [constructor|]. split; [intros q; reflexivity|]. right. exists n, v, kw. split; [reflexivity|]. right; auto.
  Qed.
  Lemma delete_spec : forall names d, NoDup (dkeys d) -> deleted d (fst (delete_loop d names)) names (snd (delete_loop d names)).
  Proof.
    induction names as [|[n|] names IH]; intros d ND; cbn [delete_loop].
    - exists [], []. split; [reflexivity|]. split; [constructor|]. split; [intros n []|]. split; [intros n; reflexivity|left; split; reflexivity].
    - destruct (dmem String.eqb d n) eqn:M.
      + apply (dmem_true String.eqb String.eqb_spec) in M. destruct (IH (ddel String.eqb d n) (NoDup_ddel String.eqb d n ND)) as (gone & rest & E & NG & IG & Lk & X).
        assert (NI : ~ In n gone).
        { intros H. apply IG in H. revert H. apply (dget_None String.eqb String.eqb_spec), (dget_ddel_same String.eqb String.eqb_spec). exact ND. }
        exists (n :: gone), rest. split; [rewrite E; reflexivity|]. split; [constructor; assumption|].
        split; [intros q [<-|Hq]; [exact M|apply IG in Hq; apply In_dkeys_ddel in Hq; exact Hq]|]. split.
        * intros q. rewrite Lk. destruct (in_dec string_dec q gone) as [I|I], (in_dec string_dec q (n :: gone)) as [J|J]; try reflexivity.
          -- elim J; right; exact I.
          -- destruct J as [<-|J]; [|contradiction]. apply (dget_ddel_same String.eqb String.eqb_spec); exact ND.
          -- apply (dget_ddel_other String.eqb String.eqb_spec). intros ->; apply J; left; reflexivity.
        * destruct X as [X|(X & [Y|(m & r & Y & Z)])]; [left; exact X|right; split; [exact X|left; exact Y]|].
          right. split; [exact X|]. right. exists m, r. split; [exact Y|]. destruct Z as [Z|Z]; [left; right; exact Z|].
          destruct (string_dec m n) as [->|Nm]; [left; left; reflexivity|]. right. intros I. apply Z.
          destruct (dget String.eqb d m) as [v|] eqn:D; [|apply (dget_None String.eqb String.eqb_spec) in D; contradiction].
          rewrite <- (dget_ddel_other String.eqb String.eqb_spec d n m) in D by congruence. apply (dget_In String.eqb String.eqb_spec) in D. apply (in_map fst) in D. exact D.
      + apply (dmem_false String.eqb String.eqb_spec) in M. exists [], (Some n :: names). split; [reflexivity|]. split; [constructor|]. split; [intros q []|]. split; [intros q; reflexivity|].
        right. split; [reflexivity|]. right. exists n, names. split; [reflexivity|right; exact M].
    - exists [], (None :: names). split; [reflexivity|]. split; [constructor|]. split; [intros q []|]. split; [intros q; reflexivity|].
      right. split; [reflexivity|]. left. exists names; reflexivity.
  Qed.

  (** Calls as Python can make them: keyword arguments have different names. *)
  Definition proper (o : op) : Prop :=
    match o with AddFields kw | AddEngineFields kw => NoDup (dkeys kw) /\ Forall (fun nv => regular_offer (snd nv)) kw | _ => True end.
  Definition sound (d : list (string * offered)) : Prop := NoDup (dkeys d) /\ forall n v, dget String.eqb d n = Some v -> legal n /\ fine v.
  Lemma add_nodup : forall kw d, NoDup (dkeys d) -> NoDup (dkeys (fst (add_loop isident d kw))).
  Proof.
    induction kw as [|[n v] kw IH]; intros d ND; cbn [add_loop]; [exact ND|]. destruct (check_field isident n v); [|exact ND]. apply IH, NoDup_dset; [exact String.eqb_spec|exact ND].
  Qed.
  Lemma delete_nodup : forall ns d, NoDup (dkeys d) -> NoDup (dkeys (fst (delete_loop d ns))).
  Proof.
    induction ns as [|[n|] ns IH]; intros d ND; cbn [delete_loop]; [exact ND| |exact ND]. destruct (dmem String.eqb d n); [|exact ND]. apply IH, NoDup_ddel; exact ND.
  Qed.
  Lemma add_sound : forall kw d, NoDup (dkeys kw) -> Forall (fun nv => regular_offer (snd nv)) kw -> sound d -> sound (fst (add_loop isident d kw)).
  Proof.
    intros kw d NK R (ND & S). split; [apply add_nodup; exact ND|]. destruct (add_spec kw d NK R) as (done & rest & _ & F & Lk & _). intros n v H. rewrite Lk in H.
    destruct (dget String.eqb done n) as [v'|] eqn:D; [|apply S; exact H]. injection H as ->. apply (dget_In String.eqb String.eqb_spec) in D. rewrite Forall_forall in F. apply (F _ D).
  Qed.
  Lemma delete_sound : forall ns d, sound d -> sound (fst (delete_loop d ns)).
  Proof.
    intros ns d (ND & S). split; [apply delete_nodup; exact ND|]. destruct (delete_spec ns d ND) as (gone & rest & _ & _ & _ & Lk & _). intros n v H. rewrite Lk in H.
    destruct (in_dec string_dec n gone); [discriminate|apply S; exact H].
  Qed.
  (** Whatever was done before, only legal names with usable fields are registered: never a name of a built-in field. *)
  Theorem C62_registered : forall ops, Forall proper ops ->
    sound (in_place (final (step isident) empty_registry ops)) /\ sound (engine (final (step isident) empty_registry ops)).
  Proof.
    intros ops P. unfold final. assert (G : forall r, sound (in_place r) /\ sound (engine r) ->
      sound (in_place (fold_left (fun r o => fst (step isident r o)) ops r)) /\ sound (engine (fold_left (fun r o => fst (step isident r o)) ops r))).
    { induction P as [|o ops Po P IH]; intros r S; cbn [fold_left]; [exact S|]. apply IH. clear IH. destruct S as (SI & SE). destruct o as [kw|kw|ns|ns]; cbn [step proper] in *.
      - pose proof (add_sound kw _ (proj1 Po) (proj2 Po) SI). destruct (add_loop isident (in_place r) kw); split; assumption.
      - pose proof (add_sound kw _ (proj1 Po) (proj2 Po) SE). destruct (add_loop isident (engine r) kw); split; assumption.
      - pose proof (delete_sound ns _ SI). destruct (delete_loop (in_place r) ns); split; assumption.
      - pose proof (delete_sound ns _ SE). destruct (delete_loop (engine r) ns); split; assumption. }
    apply G. split; (split; [apply NoDup_nil|intros n v H; discriminate]).
  Qed.
  (** The exact effect of every call; the other kind of fields is not touched. *)
  Theorem C62_effect : forall ops o, Forall proper ops -> proper o ->
    let r := final (step isident) empty_registry ops in
    let r' := fst (step isident r o) in let x := snd (step isident r o) in
    match o with
    | AddFields kw => added (in_place r) (in_place r') kw x /\ engine r' = engine r
    | AddEngineFields kw => added (engine r) (engine r') kw x /\ in_place r' = in_place r
    | DeleteFields ns => deleted (in_place r) (in_place r') ns x /\ engine r' = engine r
    | DeleteEngineFields ns => deleted (engine r) (engine r') ns x /\ in_place r' = in_place r
    end.
  Proof.
    intros ops o P Po. destruct (C62_registered ops P) as ((NI & _) & (NE & _)). revert NI NE. generalize (final (step isident) empty_registry ops) as r. intros r NI NE. cbv zeta.
    destruct o as [kw|kw|ns|ns]; cbn [step proper] in *.
    - pose proof (add_spec kw (in_place r) (proj1 Po) (proj2 Po)) as H. destruct (add_loop isident (in_place r) kw); split; [exact H|reflexivity].
    - pose proof (add_spec kw (engine r) (proj1 Po) (proj2 Po)) as H. destruct (add_loop isident (engine r) kw); split; [exact H|reflexivity].
    - pose proof (delete_spec ns (in_place r) NI) as H. destruct (delete_loop (in_place r) ns); split; [exact H|reflexivity].
    - pose proof (delete_spec ns (engine r) NE) as H. destruct (delete_loop (engine r) ns); split; [exact H|reflexivity].
  Qed.
  (** Asking: all fields, or those of the given names; of two fields of one name the engine's. *)
  Lemma select_spec : forall d names n, dget String.eqb (select d names) n =
    if match names with [] => true | _ => if in_dec string_dec n names then true else false end then dget String.eqb d n else None.
  Proof.
    intros d names n. unfold select. destruct names as [|a names]; [reflexivity|]. generalize (a :: names) as l. clear a names. intros l.
    assert (G : forall acc, dget String.eqb (fold_left (fun acc n => match dget String.eqb d n with Some v => dset String.eqb acc n v | None => acc end) l acc) n =
      if in_dec string_dec n l then match dget String.eqb d n with Some v => Some v | None => dget String.eqb acc n end else dget String.eqb acc n).
    { induction l as [|a l IH]; intros acc; [reflexivity|]. cbn [fold_left]. rewrite IH.
      destruct (in_dec string_dec n l) as [I|I], (in_dec string_dec n (a :: l)) as [J|J]; try (elim J; right; exact I).
      - destruct (dget String.eqb d n) as [v|] eqn:D; [reflexivity|]. destruct (dget String.eqb d a) as [v|] eqn:Da; [|reflexivity]. apply (dget_dset_other String.eqb String.eqb_spec). congruence.
      - destruct J as [->|J]; [|contradiction]. destruct (dget String.eqb d n) as [v|]; [apply (dget_dset_same String.eqb String.eqb_spec)|reflexivity].
      - destruct (dget String.eqb d a) as [v|]; [|reflexivity]. apply (dget_dset_other String.eqb String.eqb_spec). intros ->. apply J; left; reflexivity. }
    rewrite G. destruct (in_dec string_dec n l); [|reflexivity]. cbn [dget]. destruct (dget String.eqb d n); reflexivity.
  Qed.
  Lemma select_nodup : forall d names, NoDup (dkeys d) -> NoDup (dkeys (select d names)).
  Proof.
    intros d names ND. unfold select. destruct names as [|a names]; [exact ND|]. generalize (a :: names) as l. intros l.
    assert (G : forall acc : list (string * offered), NoDup (dkeys acc) -> NoDup (dkeys (fold_left (fun acc n => match dget String.eqb d n with Some v => dset String.eqb acc n v | None => acc end) l acc))).
    { induction l as [|x l IH]; intros acc N; [exact N|]. cbn [fold_left]. apply IH. destruct (dget String.eqb d x); [apply NoDup_dset; [exact String.eqb_spec|exact N]|exact N]. }
    apply G. constructor.
  Qed.
  Theorem C62_asked : forall ops names n, Forall proper ops ->
    let r := final (step isident) empty_registry ops in
    let asked := match names with [] => true | _ => if in_dec string_dec n names then true else false end in
    dget String.eqb (get_all_fields r names) n =
      (if asked then match dget String.eqb (engine r) n with Some v => Some v | None => dget String.eqb (in_place r) n end else None) /\
    dget String.eqb (select (in_place r) names) n = (if asked then dget String.eqb (in_place r) n else None) /\
    dget String.eqb (select (engine r) names) n = (if asked then dget String.eqb (engine r) n else None).
  Proof.
    intros ops names n P. cbv zeta. destruct (C62_registered ops P) as (_ & (NE & _)). revert NE. generalize (final (step isident) empty_registry ops) as r. intros r NE.
    split; [|split; apply select_spec]. unfold get_all_fields.
    assert (G : forall (l acc : list (string * offered)), NoDup (dkeys l) -> dget String.eqb (fold_left (fun acc nv => dset String.eqb acc (fst nv) (snd nv)) l acc) n =
      match dget String.eqb l n with Some v => Some v | None => dget String.eqb acc n end).
    { induction l as [|[a v] l IH]; intros acc N; [reflexivity|]. cbn [fold_left fst snd]. cbn [dkeys map fst] in N. inversion N as [|y m Na N']; subst. rewrite IH by exact N'. cbn [dget].
      destruct (String.eqb_spec n a) as [->|Nn].
      - rewrite (proj2 (dget_None String.eqb String.eqb_spec l a) Na). apply (dget_dset_same String.eqb String.eqb_spec).
      - destruct (dget String.eqb l n); [reflexivity|]. apply (dget_dset_other String.eqb String.eqb_spec). congruence. }
    rewrite G by (apply select_nodup; exact NE). rewrite !select_spec. destruct (match names with [] => true | _ => if in_dec string_dec n names then true else false end); [|reflexivity].
    destruct (dget String.eqb (engine r) n); reflexivity.
  Qed.
End Props.

(** ** Examples *)
Definition ident_ex (s : string) : bool := negb (existsb (String.eqb s) ["."; ""; "1a"]).
Definition def_ex : pydef := mkDef [] [] ["log_item"] [] None [] [] None.
Definition good_ex (i : nat) : offered := mkOffered i (Some (Callable (params def_ex))).
Definition bad_ex : offered := mkOffered 9 None.
Example ex_registry :
  let r := final (step ident_ex) empty_registry [AddFields [("user", good_ex 1); ("ip", good_ex 2)]; AddEngineFields [("user", good_ex 3)]; DeleteFields [Some "ip"]] in
  get_all_fields r [] = [("user", good_ex 3)] /\ select (in_place r) ["user"; "nobody"] = [("user", good_ex 1)] /\
  snd (step ident_ex r (AddFields [("a", good_ex 4); ("level", good_ex 5); ("b", good_ex 6)])) = Err ENameError /\
  in_place (fst (step ident_ex r (AddFields [("a", good_ex 4); ("level", good_ex 5); ("b", good_ex 6)]))) = [("user", good_ex 1); ("a", good_ex 4)] /\
  snd (step ident_ex r (AddFields [("a", bad_ex)])) = Err EValueError /\ snd (step ident_ex r (AddFields [("_a", good_ex 1)])) = Err ENameError /\
  snd (step ident_ex r (DeleteFields [Some "ip"])) = Err EKeyError.
Proof. vm_compute. repeat split; reflexivity. Qed.
Example ex_created : usable (Callable (params def_ex)) /\ ~ usable (Callable (params (mkDef [] [] ["a"; "b"] [] None [] [] None))).
Proof.
  split; [exists def_ex; split; [reflexivity|repeat split; reflexivity]|]. intros (d & E & O). injection E as E.
  destruct d as [p pd k kd s o od s2]. destruct O as (L & K & D & S & S2). cbn in K, D, S, S2, L. subst. unfold params in E; cbn [po po_d pk pk_d star ko ko_d star2] in E.
  apply (f_equal (filter (fun q => negb (has_default q) && match kind q with KeywordOnly => false | _ => true end))) in E. rewrite !filter_app in E.
  apply (f_equal (@length param)) in E. rewrite !app_length in E. cbn in E.
  assert (F : forall kd b (g : param -> bool) (l : list string), (forall n, g (mk kd b n) = true) -> length (filter g (map (mk kd b) l)) = length l)
    by (intros kd b g l H; induction l as [|x l IH]; cbn; [reflexivity|]; rewrite H; cbn; rewrite IH; reflexivity).
  assert (F0 : forall kd b (g : param -> bool) (l : list string), (forall n, g (mk kd b n) = false) -> length (filter g (map (mk kd b) l)) = 0)
    by (intros kd b g l H; induction l as [|x l IH]; cbn; [reflexivity|]; rewrite H; exact IH).
  rewrite (F PositionalOnly false), (F0 PositionalOnly true), (F PositionalOrKeyword false), (F0 KeywordOnly false) in E by reflexivity. lia.
Qed.

(** The documentation says that without a converter the content is turned into a text by str(); it is not. *)
Theorem C62_text_refuted : exists (e : fn unit Fmt_Model.val Fmt_Model.log) f v, new_field ident_ex unit Fmt_Model.log Fmt_Model.val e None = Ok f /\
  get_data _ _ _ f tt [] = (tt, Ok v) /\ forall s, v <> Fmt_Model.VStr s.
Proof.
  exists (mkFn _ _ _ (Callable (params def_ex)) (fun w _ => (w, Ok (Fmt_Model.VBool true)))). eexists. exists (Fmt_Model.VBool true).
  split; [reflexivity|]. split; [reflexivity|discriminate].
Qed.
(** The check of names lets through a name that the file formatter keeps for itself: such a field vanishes from the line of a record with an exception. *)
Theorem C62_visible_refuted : exists n, legal ident_ex n /\ exists l1 l2, dget String.eqb l1 n = Some (Fmt_Model.VStr "important") /\ dget String.eqb l2 n = None /\
  Fmt_Props.answer Fmt_Examples.loads_ex Fmt_Examples.show_ex Fmt_Examples.sp_ex Fmt_Spec.nl [] (Fmt_Examples.env_ex, l1) =
  Fmt_Props.answer Fmt_Examples.loads_ex Fmt_Examples.show_ex Fmt_Examples.sp_ex Fmt_Spec.nl [] (Fmt_Examples.env_ex, l2).
Proof.
  exists "exception". split; [split; [reflexivity|split; [discriminate|unfold Fmt_Spec.standard; cbn; intuition discriminate]]|]. apply Fmt_Examples.C61_custom_shown_refuted.
Qed.
Print Assumptions C62_created.
Print Assumptions C62_get_data.
Print Assumptions C62_registered.
Print Assumptions C62_effect.
Print Assumptions C62_asked.
Print Assumptions C62_text_refuted.
Print Assumptions C62_visible_refuted.
