(** * C63: arguments and results written as json and read back as text *)
From Verif Require Import Base Text Json_Model Fmt_Model Numeral Fmt_Spec Fmt_Proofs Fmt_Line.
From Verif Require Settings_Model.
From Coq Require Import ZArith.
Local Open Scope string_scope.
Local Open Scope list_scope.

(** ** What should be shown of a value *)
Definition var_of (v : pv) (x : var) : Prop :=
  match v with
  | PBool b => x = mkVar (if b then "True" else "False") "bool"
  | PInt z _ => exists s, decimal s z /\ x = mkVar s "int"
  | PFloat t _ _ => x = mkVar t "float"
  | PStr s _ => x = mkVar s "str"
  | POther s t => exists s', s = Ok s' /\ x = mkVar s' t
  end.
(** type(x).__name__ *)
Definition class_of (v : pv) : string :=
  match v with PBool _ => "bool" | PInt _ c | PFloat _ _ c | PStr _ c | POther _ c => c end.
(** str(x) can be taken *)
Definition speaks (v : pv) : Prop := match v with POther (Err _) _ => False | _ => True end.

Section Props.
  Variable dumps : json -> Res string.
  Variable loads : string -> Res json.
  Variable show : json -> string.

  Lemma get_item_ok : forall v j, get_item v = Ok j -> exists x, var_of v x /\ carries_var show j x.
  Proof.
    intros [b|z c|t nz c|s c|s t] j H; unfold get_item in H; cbn in H; try (injection H as <-).
    - eexists; split; [reflexivity|]. eexists _, _; repeat split; try reflexivity.
    - eexists; split; [eexists; split; [apply str_decimal|reflexivity]|]. eexists _, _; repeat split; reflexivity.
    - eexists; split; [reflexivity|]. eexists _, _; repeat split; reflexivity.
    - eexists; split; [reflexivity|]. eexists _, _; repeat split; reflexivity.
    - destruct s as [s|]; cbn in H; [|discriminate]. injection H as <-. exists (mkVar s t). split; [exists s; split; reflexivity|]. eexists _, _; repeat split; reflexivity.
  Qed.
  Lemma get_named_ok : forall kv kj, bindR (get_item (snd kv)) (fun j => Ok (fst kv, j)) = Ok kj ->
    exists kx : string * var, (fst kv = fst kx /\ var_of (snd kv) (snd kx)) /\ (fst kj = fst kx /\ carries_var show (snd kj) (snd kx)).
  Proof.
    intros [k v] kj H; cbn [fst snd] in *. destruct (get_item v) as [j|] eqn:G; cbn [bindR] in H; [|discriminate]. injection H as <-.
    destruct (get_item_ok _ _ G) as (x & V & C). exists (k, x); cbn; auto.
  Qed.
  Lemma get_item_fails : forall v, (exists e, get_item v = Err e) <-> ~ speaks v.
  Proof.
    intros [b|z c|t nz c|s c|[s|e] t]; cbn; split; intros H; try (destruct H as (e' & H); discriminate); try (elim H; exact I); eauto.
  Qed.
  Lemma mapR_rel : forall {A B C} (f : A -> Res B) (R : A -> C -> Prop) (S : B -> C -> Prop) l bs,
    (forall a b, f a = Ok b -> exists c, R a c /\ S b c) -> mapR f l = Ok bs -> exists cs, Forall2 R l cs /\ Forall2 S bs cs.
  Proof.
    intros A B C f R S l bs H. revert bs. induction l as [|a l IH]; intros bs M; cbn [mapR] in M; [injection M as <-; exists []; split; constructor|].
    destruct (f a) as [b|] eqn:E; cbn [bindR] in M; [|discriminate]. destruct (mapR f l) as [bs'|]; cbn [bindR] in M; [|discriminate]. injection M as <-.
    destruct (H a b E) as (c & R1 & S1), (IH bs' eq_refl) as (cs & R2 & S2). exists (c :: cs). split; constructor; assumption.
  Qed.
  Lemma mapR_fails : forall {A B} (f : A -> Res B) l, (exists e, mapR f l = Err e) <-> exists a, In a l /\ exists e, f a = Err e.
  Proof.
    induction l as [|a l IH]; split; intros H; cbn [mapR] in *.
    - destruct H as (e & H); discriminate.
    - destruct H as (a & [] & _).
    - destruct H as (e & H). destruct (f a) as [b|e'] eqn:E; cbn [bindR] in H; [|exists a; split; [left; reflexivity|exists e'; exact E]].
      destruct (mapR f l) as [bs|e'']; cbn [bindR] in H; [discriminate|]. destruct (proj1 IH) as (x & Hx & Ex); [eexists; reflexivity|]. exists x; split; [right; exact Hx|exact Ex].
    - destruct H as (x & Hx & e & Ex). destruct (f a) as [b|e'] eqn:E; cbn [bindR]; [|eexists; reflexivity]. destruct Hx as [->|Hx]; [congruence|].
      destruct (proj2 IH) as (e' & ->); [exists x; split; [exact Hx|eexists; exact Ex]|]. eexists; reflexivity.
  Qed.
  Lemma Forall2_len : forall {A B} (R : A -> B -> Prop) l m, Forall2 R l m -> length l = length m.
  Proof. intros A B R l m F; induction F; cbn; congruence. Qed.

  (** None exactly when there is nothing to write. *)
  Theorem C63_none : forall args kwargs, json_vars dumps args kwargs = Ok None <-> args = [] /\ kwargs = [].
  Proof.
    intros args kwargs; split; [|intros (-> & ->); reflexivity]. unfold json_vars. destruct (Nat.eqb (length args + length kwargs) 0) eqn:E.
    - apply Nat.eqb_eq in E. intros _. destruct args, kwargs; cbn in E; try lia. split; reflexivity.
    - intros H. destruct (mapR get_item args) as [a|]; cbn [bindR] in H; [|discriminate].
      destruct (mapR (fun kv => bindR (get_item (snd kv)) (fun j => Ok (fst kv, j))) kwargs) as [k|]; cbn [bindR] in H; [|discriminate].
      match type of H with bindR ?d _ = _ => destruct d; cbn [bindR] in H; discriminate end.
  Qed.
  (** It fails exactly when some value cannot be written as a text (given a json module that accepts texts, numbers and truth values). *)
  Theorem C63_fails : (forall j, exists s, dumps j = Ok s) -> forall args kwargs,
    (exists e, json_vars dumps args kwargs = Err e) <-> exists v, In v (args ++ map snd kwargs) /\ ~ speaks v.
  Proof.
    intros D args kwargs. unfold json_vars. destruct (Nat.eqb (length args + length kwargs) 0) eqn:E.
    - apply Nat.eqb_eq in E. destruct args, kwargs; cbn in E; try lia. split; [intros (e & H); discriminate|intros (v & [] & _)].
    - set (fk := fun kv : string * pv => bindR (get_item (snd kv)) (fun j => Ok (fst kv, j))).
      assert (FK : forall kv, (exists e, fk kv = Err e) <-> ~ speaks (snd kv)).
      { intros kv. rewrite <- get_item_fails. unfold fk. destruct (get_item (snd kv)); cbn [bindR]; split; intros (e' & H); try discriminate; eauto. }
      pose proof (mapR_fails get_item args) as MA. pose proof (mapR_fails fk kwargs) as MK. split.
      + intros (e & H). destruct (mapR get_item args) as [a|ea]; cbn [bindR] in H.
        * destruct (mapR fk kwargs) as [k|ek]; cbn [bindR] in H.
          -- match type of H with bindR (dumps ?j) _ = _ => destruct (D j) as (s & Ds); rewrite Ds in H; discriminate end.
          -- destruct (proj1 MK) as (kv & I & F); [eexists; reflexivity|]. exists (snd kv). split; [apply in_or_app; right; apply in_map; exact I|apply FK; exact F].
        * destruct (proj1 MA) as (v & I & F); [eexists; reflexivity|]. exists v. split; [apply in_or_app; left; exact I|apply get_item_fails; exact F].
      + intros (v & I & F). apply in_app_or in I. destruct I as [I|I].
        * destruct (proj2 MA) as (e & ->); [exists v; split; [exact I|apply get_item_fails; exact F]|]. eexists; reflexivity.
        * apply in_map_iff in I as (kv & <- & I). destruct (mapR get_item args); cbn [bindR]; [|eexists; reflexivity].
          destruct (proj2 MK) as (e & ->); [exists kv; split; [exact I|apply FK; exact F]|]. eexists; reflexivity.
  Qed.

  Section RoundTrip.
    (** The json module reads back what it wrote. *)
    Hypothesis reads_back : forall j s, dumps j = Ok s -> loads s = Ok j /\ s <> "".

    (** What json_vars wrote is shown as the arguments in order, each with its type, named ones with their names. *)
    Theorem C63_arguments : forall args kwargs s, json_vars dumps args kwargs = Ok (Some s) -> exists xs kxs,
      Forall2 var_of args xs /\ Forall2 (fun kv kx => fst kv = fst kx /\ var_of (snd kv) (snd kx)) kwargs kxs /\
      json_variables_to_text loads show (VStr s) = Ok (Some (vars_text xs kxs)).
    Proof.
      intros args kwargs s H. unfold json_vars in H. destruct (Nat.eqb (length args + length kwargs) 0) eqn:E; [discriminate|].
      destruct (mapR get_item args) as [a|] eqn:MA; cbn [bindR] in H; [|discriminate].
      destruct (mapR (fun kv => bindR (get_item (snd kv)) (fun j => Ok (fst kv, j))) kwargs) as [k|] eqn:MK; cbn [bindR] in H; [|discriminate].
      destruct (mapR_rel get_item var_of (carries_var show) args a get_item_ok MA) as (xs & R1 & S1).
      destruct (mapR_rel _ (fun kv kx => fst kv = fst kx /\ var_of (snd kv) (snd kx)) (fun kj kx => fst kj = fst kx /\ carries_var show (snd kj) (snd kx)) kwargs k
        get_named_ok MK) as (kxs & R2 & S2).
      exists xs, kxs. split; [exact R1|]. split; [exact R2|].
      match type of H with bindR (dumps ?d) _ = _ => set (doc := d) in H end.
      destruct (dumps doc) as [s'|] eqn:Dd; cbn [bindR] in H; [|discriminate]. injection H as ->.
      destruct (reads_back _ _ Dd) as (L & N). apply (vars_of loads show s doc); [exact N|exact L|].
      pose proof (Forall2_len _ _ _ R1) as L1. pose proof (Forall2_len _ _ _ S1) as L1'. pose proof (Forall2_len _ _ _ R2) as L2. pose proof (Forall2_len _ _ _ S2) as L2'.
      apply Nat.eqb_neq in E. eexists; split; [reflexivity|]. split.
      - destruct xs; [right|left; discriminate]. destruct kxs; [cbn in *; lia|discriminate].
      - destruct S1 as [|j x a xs Hj S1], S2 as [|kj kx k kxs Hk S2]; cbn [length Nat.eqb app].
        + cbn in *; lia.
        + split; [reflexivity|]. exists (kj :: k). split; [reflexivity|constructor; assumption].
        + split; [exists (j :: a); split; [reflexivity|constructor; assumption]|reflexivity].
        + split; [exists (j :: a); split; [reflexivity|constructor; assumption]|]. exists (kj :: k). split; [reflexivity|constructor; assumption].
    Qed.
    (** The result of a call. *)
    Theorem C63_result : forall v s l, json_one_variable dumps v = Ok s -> dget String.eqb l "result" = Some (VStr s) ->
      exists x, var_of v x /\ x_result loads show l = Ok (Some ("result: " ++ var_text x)%string).
    Proof.
      intros v s l H G. unfold json_one_variable in H. destruct (get_item v) as [j|] eqn:I; cbn [bindR] in H; [|discriminate].
      destruct (reads_back _ _ H) as (L & _). destruct (get_item_ok _ _ I) as (x & V & C). exists x. split; [exact V|].
      unfold x_result. rewrite G, L. cbn [bindR]. rewrite (human_var show j x C). reflexivity.
    Qed.
    (** Of distinct simple values at most the text decides: values shown alike have the same text and type, unless quotation marks of texts interfere. *)
    Theorem C63_one_distinct : forall v1 v2 x1 x2, var_of v1 x1 -> var_of v2 x2 -> v_type x1 = v_type x2 -> var_text x1 = var_text x2 -> v_text x1 = v_text x2.
    Proof.
      intros v1 v2 [t1 y1] [t2 y2] _ _ Y T. cbn [v_text v_type] in *. subst y2. unfold var_text in T; cbn [v_text v_type] in T.
      assert (Inj : forall a b c, (a ++ c)%string = (b ++ c)%string -> a = b).
      { intros a b c H. assert (Ln : String.length a = String.length b) by (apply (f_equal String.length) in H; rewrite !str_length_app in H; lia).
        revert b H Ln. induction a as [|ch a IH]; intros [|ch' b] H Ln; cbn in *; try discriminate; [reflexivity|]. injection H as -> H. f_equal. apply IH; [exact H|lia]. }
      apply Inj in T. destruct (String.eqb y1 "str"); [|exact T]. unfold quoted in T. cbn in T. injection T as T. apply Inj in T. exact T.
    Qed.
  End RoundTrip.
End Props.

Example ex_vars : json_vars (fun j => Ok "{...}") [PBool true; PInt 7 "int"; POther (Ok "<X>") "X"] [("k", PStr "v" "str")] = Ok (Some "{...}") /\
  document_to_text (fun _ => "") (JObj [("args", JArr [JObj [("value", JBool true); ("type", JStr "bool")]; JObj [("value", JNum "7" true); ("type", JStr "int")];
    JObj [("value", JStr "<X>"); ("type", JStr "X")]]); ("kwargs", JObj [("k", JObj [("value", JStr "v"); ("type", JStr "str")])])]) =
  Ok (Some "True (bool), 7 (int), <X> (X), k = ""v"" (str)").
Proof. split; vm_compute; reflexivity. Qed.
(** A json module that can write one text as the only argument: the hypothesis of the round trip holds, and so does its conclusion. *)
Definition one_text (a : string) : json := JObj [("args", JArr [JObj [("value", JStr a); ("type", JStr "str")]])].
Definition dumps_ex (j : json) : Res string :=
  match j with
  | JObj [(k1, JArr [JObj [(k2, JStr a); (k3, JStr t)]])] =>
      if String.eqb k1 "args" && String.eqb k2 "value" && String.eqb k3 "type" && String.eqb t "str" then Ok (String "s" a) else Err ETypeError
  | _ => Err ETypeError
  end.
Definition loads_ex (s : string) : Res json := match s with String "s" a => Ok (one_text a) | _ => Err EValueError end.
Example ex_reads_back : forall j s, dumps_ex j = Ok s -> loads_ex s = Ok j /\ s <> "".
Proof.
  intros j s H. unfold dumps_ex in H. repeat match type of H with context [match ?x with _ => _ end] => is_var x; destruct x; try discriminate end.
  destruct (String.eqb_spec s0 "args"), (String.eqb_spec s1 "value"), (String.eqb_spec s3 "type"), (String.eqb_spec s4 "str"); cbn [andb] in H; try discriminate.
  injection H as <-. subst. split; [reflexivity|discriminate].
Qed.
Example ex_round_trip : json_vars dumps_ex [PStr "hello" "str"] [] = Ok (Some "shello") /\ json_variables_to_text loads_ex (fun _ => "") (VStr "shello") = Ok (Some """hello"" (str)").
Proof. split; vm_compute; reflexivity. Qed.
(** The type shown is not always that of the object: an instance of a subclass of int, float or str is shown as its base. *)
Theorem C63_type_refuted : exists v x, var_of v x /\ v_type x <> class_of v.
Proof. exists (PStr "a" "Name"), (mkVar "a" "str"). split; [reflexivity|discriminate]. Qed.
(** The text of the arguments does not determine them, not even their number. *)
Theorem C63_distinct_refuted : exists a1 a2 x1 x2, length a1 <> length a2 /\ Forall2 var_of a1 x1 /\ Forall2 var_of a2 x2 /\ vars_text x1 [] = vars_text x2 [].
Proof.
  exists [PStr "a"" (str), ""b" "str"], [PStr "a" "str"; PStr "b" "str"], [mkVar "a"" (str), ""b" "str"], [mkVar "a" "str"; mkVar "b" "str"].
  split; [discriminate|]. split; [repeat constructor|]. split; [repeat constructor|]. vm_compute. reflexivity.
Qed.
Print Assumptions C63_none.
Print Assumptions C63_fails.
Print Assumptions C63_arguments.
Print Assumptions C63_result.
Print Assumptions C63_one_distinct.
Print Assumptions C63_type_refuted.
Print Assumptions C63_distinct_refuted.
