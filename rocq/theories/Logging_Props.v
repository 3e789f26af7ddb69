(** C50: the integration with the standard module logging. *)
From Coq Require Import Lia.
From Verif Require Import Base Handle_Model Logging_Model.
Local Open Scope string_scope.
Local Open Scope list_scope.

Section C50.
  Variable isident : string -> bool.
  Notation copy := (copy isident).
  Notation emit := (emit isident).

  (** ** Specification of the record that Polog writes for a record of logging. *)
  (** logging's own record is sound: arguments fit the message, exc_info is absent or a real exception whose texts can be made. *)
  Definition sound (r : lrec) : Prop :=
    (forall e, msg r <> Some (Err e)) /\
    (exc_info r = NoExc \/ exists n t b, exc_info r = Exc n (Ok t) (Ok b)) /\ created r <> VNone.
  Definition expected (c : cfg) (r : lrec) (k : string) : option val :=
    if String.eqb k "time" then Some (created r)
    else if String.eqb k "message" then match msg r with Some (Ok s) => Some (VStr s) | _ => None end
    else if String.eqb k "level" then Some (VInt (levelno r))
    else if String.eqb k "success" then Some (VBool (levelno r <? 30)%Z)
    else if String.eqb k "module" then Some (VStr (lmodule r))
    else if String.eqb k "line_number" then Some (VInt (lineno r))
    else if String.eqb k "function" then (if isident (funcName r) then Some (VStr (funcName r)) else None)
    else if String.eqb k "path_to_code" then Some (VStr (pathname r))
    else if String.eqb k "exception_type" then match exc_info r with Exc n _ _ => Some (VStr n) | _ => None end
    else if String.eqb k "exception_message" then match exc_info r with Exc _ (Ok t) _ => Some (VStr t) | _ => None end
    else if String.eqb k "traceback" then match exc_info r with Exc _ _ (Ok b) => Some (VStr b) | _ => None end
    else if String.eqb k "thread" then Some (VStr (thread_text r))
    else if String.eqb k "process" then Some (VStr (process_text r))
    else if String.eqb k "from_logging" then Some (VBool true)
    else if String.eqb k "auto" then Some (VBool false)
    else if String.eqb k "service_name" then option_map VStr (c_service c)
    else None.

  (** ** The arguments go through the argument loop unchanged *)
  Definition fine (kv : string * val) : Prop :=
    convert_key (fst kv) = fst kv /\ allowed (fst kv) (snd kv) <> Some false /\ (forall c, convert_value c (fst kv) (snd kv) = Ok (snd kv)) /\ snd kv <> VNone.
  Lemma fset_new : forall f k v, fget f k = None -> fset f k v = f ++ [(k, v)].
  Proof using.
    intros f k v. unfold fget, fset. induction f as [|[k' v'] f IH]; cbn; [reflexivity|]. destruct (String.eqb k k'); [discriminate|]. intros H; rewrite (IH H); reflexivity.
  Qed.
  Lemma fget_app : forall a b k, fget (a ++ b) k = match fget a k with Some v => Some v | None => fget b k end.
  Proof using. intros; unfold fget; apply dget_app. Qed.
  Lemma put_kws_plain : forall c kw rest dest, Forall fine rest -> NoDup (map fst (dest ++ rest)) -> put_kws c [] true kw rest dest = Ok (dest ++ rest).
  Proof using.
    intros c kw rest. induction rest as [|[k v] rest IH]; intros dest F N; cbn [put_kws].
    - rewrite app_nil_r; reflexivity.
    - inversion F as [|? ? F1 F2]; subst. destruct F1 as (A & B & C & D). cbn [fst snd] in *.
      assert (G : fget dest k = None).
      { unfold fget. apply (dget_None String.eqb String.eqb_spec). intros I. rewrite map_app in N. cbn in N. apply NoDup_remove_2 in N. apply N, in_or_app. left; exact I. }
      assert (E : put_kw c [] true kw dest k v = Ok (dest ++ [(k, v)])).
      { unfold put_kw. rewrite A. cbn [memb existsb]. cbv zeta. rewrite C. cbn [bindR]. rewrite G.
        assert (S : Ok (not_none dest k v) = Ok (dest ++ [(k, v)])) by (destruct v; cbn [not_none]; try (rewrite fset_new by exact G; reflexivity); elim D; reflexivity).
        destruct (allowed k v) as [[|]|]; [exact S|elim B; reflexivity|]. destruct (memb k (c_extra c)); exact S. }
      rewrite E. cbn [bindR]. rewrite IH; [rewrite <- app_assoc; reflexivity|exact F2|]. rewrite <- app_assoc; exact N.
  Qed.

  Lemma copy_ok : forall r, sound r -> exists d, copy r = Ok d /\ (forall k, fget d k = if existsb (String.eqb k) ["auto"; "service_name"] then None else expected (mkCfg 0 0 0 true true None [] [] true true true true) r k) /\
    NoDup (map fst d) /\ ((0 <= levelno r)%Z -> Forall fine d) /\ (forall kv, In kv d -> fst kv <> "level" -> fine kv).
  Proof using.
    intros r (M & X & T). 
    assert (S : negb (30 <=? levelno r)%Z = (levelno r <? 30)%Z) by (rewrite Z.leb_antisym, Bool.negb_involutive; reflexivity).
    assert (FL : (0 <= levelno r)%Z -> fine ("level", VInt (levelno r))).
    { intros L. split; [reflexivity|split; [discriminate|split; [|discriminate]]]. intros c. cbn. destruct (Z.ltb_spec (levelno r) 0); [lia|reflexivity]. }
    unfold copy.
    destruct (msg r) as [[s|e]|] eqn:Em; [|elim (M e); reflexivity|]; (destruct X as [X|(n & t & b & X)]; rewrite X); cbn [bindR]; rewrite S; destruct (isident (funcName r)) eqn:Ei;
      (eexists; split; [reflexivity|split; [|split; [|split]]];
       [intros k; unfold fget, expected; rewrite Em, X, Ei; cbn [app dget existsb];
        repeat match goal with |- context [String.eqb k ?x] => destruct (String.eqb_spec k x) as [-> | ?]; [reflexivity|] end; reflexivity
       |cbn [app map fst]; repeat constructor; cbn; intuition discriminate
       |intros L; repeat (constructor; [first [exact (FL L)|split; [reflexivity|split; [discriminate|split; [intros; reflexivity|cbn; first [discriminate|exact T]]]]]|]); constructor
       |intros kv I N; cbn [app In] in I;
        repeat (destruct I as [<-|I]; [first [elim N; reflexivity|split; [reflexivity|split; [discriminate|split; [intros; reflexivity|cbn; first [discriminate|exact T]]]]]|]); destruct I]).
  Qed.

  Lemma handle_copy : forall c w unl r d, sound r -> (0 <= levelno r)%Z -> copy r = Ok d ->
    exists f, (forall k, fget f k = expected c r k) /\ NoDup (map fst f) /\
      handle c w true unl [] d = Ok (if (c_level c <=? levelno r)%Z && negb unl then Some f else None).
  Proof using.
    intros c w unl r d S L E. destruct (copy_ok r S) as (d' & E' & G & N & F & _). assert (d' = d) by congruence. subst d'. specialize (F L).
    assert (P : prepare c [] true [] d = Ok d) by (unfold prepare; cbn [put_args bindR]; rewrite put_kws_plain; [reflexivity|exact F|exact N]).
    unfold handle, handle_fields. rewrite P. cbn [bindR].
    assert (GA : fget d "auto" = None) by (rewrite G; reflexivity).
    assert (GS : fget d "service_name" = None) by (rewrite G; reflexivity).
    set (f2 := match c_service c with Some s => fset (fset d "auto" (VBool false)) "service_name" (VStr s) | None => fset d "auto" (VBool false) end).
    assert (E2 : f2 = d ++ ("auto", VBool false) :: match c_service c with Some s => [("service_name", VStr s)] | None => [] end).
    { unfold f2. rewrite (fset_new d "auto") by exact GA. destruct (c_service c) as [s|]; [|reflexivity].
      rewrite fset_new; [rewrite <- app_assoc; reflexivity|]. rewrite fget_app, GS. reflexivity. }
    assert (G2 : forall k, fget f2 k = expected c r k).
    { intros k. rewrite E2, fget_app, G. unfold expected; cbn [existsb].
      destruct (String.eqb_spec k "auto") as [->|Na]; [reflexivity|]. destruct (String.eqb_spec k "service_name") as [->|Ns]; [destruct (c_service c); reflexivity|]. cbn [orb].
      assert (T : fget (("auto", VBool false) :: match c_service c with Some s => [("service_name", VStr s)] | None => [] end) k = None).
      { unfold fget. cbn [dget]. destruct (String.eqb_spec k "auto"); [contradiction|]. destruct (c_service c); [cbn [dget]|reflexivity]. destruct (String.eqb_spec k "service_name"); [contradiction|reflexivity]. }
      rewrite T. repeat match goal with |- context [String.eqb k ?x] => destruct (String.eqb_spec k x) as [-> | ?] end; try reflexivity;
        try (destruct (msg r) as [[?|?]|]; reflexivity); try (destruct (isident (funcName r)); reflexivity); try (destruct (exc_info r) as [| | |? [?|?] [?|?]]; reflexivity). }
    assert (N2 : NoDup (map fst f2)).
    { assert (ND : NoDup (map fst (fset d "auto" (VBool false)))) by (apply (NoDup_dset String.eqb String.eqb_spec); exact N).
      unfold f2. destruct (c_service c); [apply (NoDup_dset String.eqb String.eqb_spec)|]; exact ND. }
    assert (X : extract_exception c w f2 true true = Ok f2) by (unfold extract_exception; rewrite G2; reflexivity).
    rewrite X. cbn [bindR].
    assert (Y : extract_function f2 = f2).
    { unfold extract_function. rewrite G2. unfold expected; cbn. destruct (isident (funcName r)); reflexivity. }
    rewrite Y.
    assert (Z : defaults c w f2 = f2).
    { unfold defaults. rewrite G2. unfold expected at 1; cbn [String.eqb Ascii.eqb Bool.eqb]. change (expected c r "level") with (Some (VInt (levelno r))). cbv iota zeta. rewrite G2. reflexivity. }
    rewrite Z. exists f2. split; [exact G2|split; [exact N2|]]. rewrite G2. change (expected c r "level") with (Some (VInt (levelno r))). cbv iota.
    destruct (c_level c <=? levelno r)%Z, unl; reflexivity.
  Qed.

  Lemma filters_before : forall c w unl off says r b l, Forall (fun x => exists n, x = OtherF n /\ says n = true) b ->
    run_filters isident c w unl off says r (b ++ l) = run_filters isident c w unl off says r l.
  Proof using.
    intros c w unl off says r b l H. induction H as [|x b (n & -> & Hn) H IH]; cbn; [reflexivity|]. rewrite Hn; exact IH.
  Qed.
  Definition say_yes (says : nat -> bool) (l : list filt) : bool := forallb (fun x => match x with OtherF n => says n | PologF => true end) l.
  Lemma filters_after : forall c w unl off says r l, ~ In PologF l -> run_filters isident c w unl off says r l = ([], Ok (say_yes says l)).
  Proof using.
    intros c w unl off says r l. induction l as [|[|n] l IH]; intros H; cbn; [reflexivity|elim H; left; reflexivity|].
    destruct (says n); [cbn; apply IH; intros I; apply H; right; exact I|reflexivity].
  Qed.

  (** One record made by the root logger gives at most one record of Polog - exactly one if its level reaches Polog's level and logging is not
      switched off by unlog - with the fields copied; and it is suppressed in logging iff logging_off is set or a filter says no. *)
  Theorem C50_record : forall c w unl off says own before after r,
    Forall (fun x => exists n, x = OtherF n /\ says n = true) before -> ~ In PologF after -> sound r -> (0 <= levelno r)%Z ->
    exists f, (forall k, fget f k = expected c r k) /\ NoDup (map fst f) /\
      emit c w unl off says (before ++ PologF :: after) own true r =
        (if (c_level c <=? levelno r)%Z && negb unl then [f] else [], Ok (negb off && say_yes says after)).
  Proof using.
    intros c w unl off says own before after r B A S L. destruct (copy_ok r S) as (d & E & _).
    destruct (handle_copy c w unl r d S L E) as (f & G & N & H). exists f. split; [exact G|split; [exact N|]].
    unfold emit. rewrite filters_before by exact B. cbn [run_filters]. unfold polog_filter. rewrite E. cbn [bindR]. rewrite H. cbn [bindR].
    rewrite filters_after by exact A. destruct ((c_level c <=? levelno r)%Z && negb unl), off; reflexivity.
  Qed.
  (** A filter before Polog's that refuses the record hides it from Polog; without Polog's filter nothing is written. *)
  Theorem C50_absent : forall c w unl off says own root r, ~ In PologF root -> emit c w unl off says root own true r = ([], Ok (say_yes says root)).
  Proof using. intros. apply filters_after; assumption. Qed.
  Theorem C50_refused_before : forall c w unl off says own before n rest r,
    Forall (fun x => exists n, x = OtherF n /\ says n = true) before -> says n = false ->
    emit c w unl off says (before ++ OtherF n :: rest) own true r = ([], Ok false).
  Proof using. intros c w unl off says own before n rest r B N. unfold emit. rewrite filters_before by exact B. cbn. rewrite N; reflexivity. Qed.
  (** A record of any other logger is not seen by Polog. *)
  Theorem C50_other_loggers : forall c w unl off says root own r, ~ In PologF own -> emit c w unl off says root own false r = ([], Ok (say_yes says own)).
  Proof using. intros. apply filters_after; assumption. Qed.

  (** The cases in which the call of logging raises, with the integration on: arguments that do not fit the message, exc_info=False, exc_info=True outside
      of an except block, texts that cannot be made, a negative level. *)
  Theorem C50_errors : forall c w unl off says own before after r,
    Forall (fun x => exists n, x = OtherF n /\ says n = true) before ->
    (forall e, msg r = Some (Err e) -> emit c w unl off says (before ++ PologF :: after) own true r = ([], Err e)) /\
    ((forall e, msg r <> Some (Err e)) -> exc_info r = FalseExc -> emit c w unl off says (before ++ PologF :: after) own true r = ([], Err ETypeError)) /\
    ((forall e, msg r <> Some (Err e)) -> exc_info r = EmptyExc -> emit c w unl off says (before ++ PologF :: after) own true r = ([], Err EAttributeError)) /\
    ((forall e, msg r <> Some (Err e)) -> forall n t e, exc_info r = Exc n t (Err e) -> emit c w unl off says (before ++ PologF :: after) own true r = ([], Err e)) /\
    ((forall e, msg r <> Some (Err e)) -> forall n b e, exc_info r = Exc n (Err e) (Ok b) -> emit c w unl off says (before ++ PologF :: after) own true r = ([], Err e)) /\
    (sound r -> (levelno r < 0)%Z -> exists e, emit c w unl off says (before ++ PologF :: after) own true r = ([], Err e)).
  Proof using.
    intros c w unl off says own before after r B. unfold emit. rewrite filters_before by exact B. cbn [run_filters]. unfold polog_filter.
    split; [|split; [|split; [|split; [|split]]]].
    - intros e E. unfold copy. rewrite E. reflexivity.
    - intros M E. unfold copy. rewrite E. destruct (msg r) as [[?|e]|]; [reflexivity|elim (M e); reflexivity|reflexivity].
    - intros M E. unfold copy. rewrite E. destruct (msg r) as [[?|e]|]; [reflexivity|elim (M e); reflexivity|reflexivity].
    - intros M n t e E. unfold copy. rewrite E. destruct (msg r) as [[?|e']|]; [reflexivity|elim (M e'); reflexivity|reflexivity].
    - intros M n b e E. unfold copy. rewrite E. destruct (msg r) as [[?|e']|]; [reflexivity|elim (M e'); reflexivity|reflexivity].
    - intros S L. destruct (copy_ok r S) as (d & E & G & N & _ & F). rewrite E. cbn [bindR].
      assert (H : exists e, handle c w true unl [] d = Err e).
      { assert (I : In ("level", VInt (levelno r)) d) by (apply (dget_In String.eqb String.eqb_spec); change (fget d "level" = Some (VInt (levelno r))); rewrite G; reflexivity).
        apply in_split in I. destruct I as (a & b & ->).
        assert (Pa : forall kw dest q, Forall fine a -> NoDup (map fst (dest ++ a)) -> put_kws c [] true kw (a ++ q) dest = put_kws c [] true kw q (dest ++ a)).
        { clear - a. intros kw dest q Fa Na. pose proof (put_kws_plain c kw a dest Fa Na) as P.
          assert (Q : forall a dest, put_kws c [] true kw (a ++ q) dest = bindR (put_kws c [] true kw a dest) (fun d => put_kws c [] true kw q d)).
          { clear. induction a as [|[k v] a IH]; intros dest; cbn [put_kws app]; [reflexivity|]. destruct (put_kw c [] true kw dest k v); cbn [bindR]; [apply IH|reflexivity]. }
          rewrite Q, P. reflexivity. }
        exists EKeyError. unfold handle, handle_fields, prepare. cbn [put_args bindR]. rewrite Pa; cbn [app].
        - cbn [put_kws]. unfold put_kw. change (convert_key "level") with "level". cbn [memb existsb]. cbv zeta. unfold convert_value, level_get. cbn [String.eqb Ascii.eqb Bool.eqb allowed is_str orb].
          destruct (Z.ltb_spec (levelno r) 0); [reflexivity|lia].
        - apply Forall_forall. intros kv I. apply F; [apply in_or_app; left; exact I|]. intros K. rewrite map_app in N; cbn in N. apply NoDup_remove_2 in N. apply N, in_or_app; left.
          rewrite <- K. apply in_map; exact I.
        - rewrite map_app in N. clear - N. induction (map fst a) as [|x l IH]; [constructor|]. inversion N as [|? ? N1 N2]; subst. constructor; [intros I; apply N1, in_or_app; left; exact I|apply IH, N2]. }
      destruct H as (e & ->). exists e. reflexivity.
  Qed.

  (** So the integration is not invisible to the program. *)
  Theorem C50_invisible_refuted : ~ forall c w unl off says root own r b, emit c w unl off says root own true r = ([], Err b) -> False.
  Proof using.
    intros H. pose (r := mkL (VOther 0) (Some (Ok "x")) 20%Z "m" 1%Z "f" "p" EmptyExc "t" "p").
    refine (H (mkCfg 0 0 0 true true None [] [] true true true true) (mkEnv (fun _ => "") (fun _ => Ok "") "" "" VNone) false false (fun _ => true) [PologF] [] r EAttributeError _).
    unfold emit. cbn. reflexivity.
  Qed.
  (** And not every record of logging gets into Polog: those of named loggers do not. *)
  Theorem C50_all_loggers_refuted : ~ forall c w off says own root r, In PologF root -> sound r -> (c_level c <= levelno r)%Z -> fst (emit c w false off says root own false r) <> [].
  Proof using.
    intros H. pose (r := mkL (VOther 0) (Some (Ok "x")) 20%Z "m" 1%Z "f" "p" NoExc "t" "p").
    apply (H (mkCfg 0 0 0 true true None [] [] true true true true) (mkEnv (fun _ => "") (fun _ => Ok "") "" "" VNone) false (fun _ => true) [] [PologF] r);
      [left; reflexivity|split; [discriminate|split; [left; reflexivity|discriminate]]|cbn; lia|reflexivity].
  Qed.
End C50.

(** The setting: after any sequence of assignments, Polog's filter is there exactly once or not at all, as the last one says, and the other filters are as
    they were, in their order. *)
Definition is_other (f : filt) : bool := match f with OtherF _ => true | PologF => false end.
Definition polog_count (l : list filt) : nat := length (filter (fun f => negb (is_other f)) l).
Lemma remove_first_spec : forall l, filter is_other (remove_first l PologF) = filter is_other l /\ (existsb (filt_eqb PologF) l = true -> polog_count l = S (polog_count (remove_first l PologF))).
Proof.
  unfold polog_count. induction l as [|[|n] l (IH1 & IH2)]; cbn; split; auto; try discriminate.
  - rewrite IH1; reflexivity.
Qed.
Lemma absent_count : forall l, existsb (filt_eqb PologF) l = false -> polog_count l = 0.
Proof. unfold polog_count. induction l as [|[|n] l IH]; cbn; auto; discriminate. Qed.
Theorem C50_install : forall vs v l, filter is_other l = l ->
  let l' := fold_left action (vs ++ [v]) l in polog_count l' = (if v : bool then 1 else 0) /\ filter is_other l' = l.
Proof.
  assert (ST : forall l l0 v, filter is_other l = l0 -> polog_count l <= 1 -> polog_count (action l v) = (if v : bool then 1 else 0) /\ filter is_other (action l v) = l0).
  { intros l l0 v F C. destruct v; unfold action, add_filter, remove_filter; destruct (existsb (filt_eqb PologF) l) eqn:X.
    - split; [|exact F]. destruct (remove_first_spec l) as (_ & R). specialize (R X). lia.
    - split; [|rewrite filter_app, F; cbn; apply app_nil_r]. unfold polog_count. rewrite filter_app, app_length. pose proof (absent_count l X) as A. unfold polog_count in A. rewrite A; reflexivity.
    - destruct (remove_first_spec l) as (R1 & R2). specialize (R2 X). split; [lia|rewrite R1; exact F].
    - split; [apply absent_count, X|exact F]. }
  intros vs v l F l'.
  assert (GEN : forall vs l1 , filter is_other l1 = l -> polog_count l1 <= 1 -> filter is_other (fold_left action vs l1) = l /\ polog_count (fold_left action vs l1) <= 1).
  { clear l'. induction vs0 as [|x vs0 IH]; intros l1 F1 C1; cbn [fold_left]; [auto|]. destruct (ST l1 l x F1 C1) as (A & B). apply IH; [exact B|]. destruct x; lia. }
  assert (C0 : polog_count l <= 1).
  { assert (Z : polog_count l = 0); [|lia]. apply absent_count. rewrite <- F. clear. induction l as [|[|n] l IH]; cbn; auto. }
  unfold l'. rewrite fold_left_app. cbn [fold_left]. destruct (GEN vs l F C0) as (A & B). apply ST; assumption.
Qed.

(** Examples: an error with its exception; an ordinary message below Polog's level. *)
Definition c1 : cfg := mkCfg 10 1 2 true true (Some "svc") [] [] true true true true.
Definition w1 : env := mkEnv (fun _ => "") (fun _ => Ok "") "" "" VNone.
Definition r1 : lrec := mkL (VOther 0) (Some (Ok "kek")) 40%Z "mod" 12%Z "func" "/a.py" (Exc "ValueError" (Ok "lol") (Ok "[]")) "MainThread (1)" "MainProcess (2)".
Example ex_error : emit (fun _ => true) c1 w1 false true (fun _ => true) [OtherF 3; PologF] [] true r1 =
  ([[("time", VOther 0); ("message", VStr "kek"); ("level", VInt 40); ("success", VBool false); ("module", VStr "mod"); ("line_number", VInt 12); ("function", VStr "func");
     ("path_to_code", VStr "/a.py"); ("exception_type", VStr "ValueError"); ("traceback", VStr "[]"); ("exception_message", VStr "lol");
     ("thread", VStr "MainThread (1)"); ("process", VStr "MainProcess (2)"); ("from_logging", VBool true); ("auto", VBool false); ("service_name", VStr "svc")]], Ok false).
Proof. reflexivity. Qed.
Example ex_sound : sound r1.
Proof. split; [discriminate|split; [right; exists "ValueError", "lol", "[]"; reflexivity|discriminate]]. Qed.
Example ex_low : emit (fun _ => true) c1 w1 false false (fun _ => true) [PologF; OtherF 1] [] true (mkL (VOther 0) None 9%Z "mod" 12%Z "<module>" "/a.py" NoExc "t" "p") = ([], Ok true).
Proof. reflexivity. Qed.

Print Assumptions C50_record.
Print Assumptions C50_absent.
Print Assumptions C50_refused_before.
Print Assumptions C50_other_loggers.
Print Assumptions C50_errors.
Print Assumptions C50_invisible_refuted.
Print Assumptions C50_all_loggers_refuted.
Print Assumptions C50_install.
