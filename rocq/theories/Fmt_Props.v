(** * C61: the line of the log file *)
From Verif Require Import Base Text Json_Model Fmt_Model Fmt_Spec Fmt_Proofs Fmt_Line.
From Verif Require Settings_Model.
From Coq Require Import ZArith.
Local Open Scope string_scope.
Local Open Scope list_scope.

Section Props.
  Variable loads : string -> Res json.
  Variable show : json -> string.
  Variable sp : ascii -> bool.

  (** One formatter, used for one record after another; between them the levels and the settings may change. *)
  Definition call := (env * log)%type.
  Definition after (separator : string) (hs : list call) : option (list (string * nat)) :=
    fold_left (fun st h => fst (get_formatted_string loads show sp separator st (fst h) (snd h))) hs None.
  Definition answer (separator : string) (hs : list call) (c : call) : Res string :=
    snd (get_formatted_string loads show sp separator (after separator hs) (fst c) (snd c)).
  (** [e0]: the circumstances of the first record that this formatter turned into a text. *)
  Definition first_circumstances (separator : string) (hs : list call) (c : call) (e0 : env) : Prop :=
    exists pre l0 post, hs ++ [c] = pre ++ (e0, l0) :: post /\
      (forall p h q, pre = p ++ h :: q -> is_ok (answer separator p h) = false) /\
      (post = [] \/ is_ok (answer separator pre (e0, l0)) = true).

  Lemma after_snoc : forall separator hs h, after separator (hs ++ [h]) = fst (get_formatted_string loads show sp separator (after separator hs) (fst h) (snd h)).
  Proof. intros. unfold after. rewrite fold_left_app. reflexivity. Qed.
  Lemma after_inv : forall separator hs, match after separator hs with
    | None => forall p h q, hs = p ++ h :: q -> is_ok (answer separator p h) = false
    | Some ns => exists pre e0 l0 post, hs = pre ++ (e0, l0) :: post /\ ns = norms e0 /\ is_ok (answer separator pre (e0, l0)) = true /\
                   (forall p h q, pre = p ++ h :: q -> is_ok (answer separator p h) = false)
    end.
  Proof.
    intros separator hs. induction hs as [|h hs IH] using rev_ind.
    - cbn. intros [|x p] y q H; discriminate.
    - rewrite after_snoc. destruct (after separator hs) as [ns|] eqn:A.
      + cbn [get_formatted_string fst]. destruct IH as (pre & e0 & l0 & post & -> & N & O & F). exists pre, e0, l0, (post ++ [h]).
        rewrite <- app_assoc. cbn [app]. auto.
      + destruct h as [e l]; cbn [fst snd get_formatted_string]. cbv zeta. destruct (formatted loads show sp (norms e) separator e l) as [s|x] eqn:Fm; cbn [fst].
        * exists hs, e, l, []. split; [reflexivity|]. split; [reflexivity|]. split; [|exact IH]. unfold answer. rewrite A. cbn [fst snd get_formatted_string]. cbv zeta. rewrite Fm. reflexivity.
        * intros p h q E. destruct (exists_last (l := h :: q)) as (q' & z & Ez); [discriminate|]. rewrite Ez in E. rewrite app_assoc in E. apply app_inj_tail in E as (E & <-).
          destruct q' as [|h' q'].
          -- injection Ez as -> ->. rewrite app_nil_r in E. subst p. unfold answer. rewrite A. cbn [fst snd get_formatted_string]. cbv zeta. rewrite Fm. reflexivity.
          -- injection Ez as -> ->. apply (IH p h' q'). exact E.
  Qed.
  Lemma answer_is : forall separator hs c, exists e0, first_circumstances separator hs c e0 /\
    answer separator hs c = formatted loads show sp (norms e0) separator (fst c) (snd c).
  Proof.
    intros separator hs [e l]. pose proof (after_inv separator hs) as I. destruct (after separator hs) as [ns|] eqn:A.
    - destruct I as (pre & e0 & l0 & post & E & -> & O & F). exists e0. split.
      + exists pre, l0, (post ++ [(e, l)]). split; [rewrite E, <- app_assoc; reflexivity|]. split; [exact F|right; exact O].
      + unfold answer. rewrite A. reflexivity.
    - exists e. split.
      + exists hs, l, []. split; [reflexivity|]. split; [exact I|left; reflexivity].
      + unfold answer. rewrite A. cbn [fst snd get_formatted_string]. cbv zeta. destruct (formatted loads show sp (norms e) separator e l); reflexivity.
  Qed.

  Section White.
    Hypothesis sp_blank : sp " " = true.
    Hypothesis sp_nl : sp (ascii_of_nat 10) = true.
    Hypothesis sp_words : dense sp "File" /\ dense sp "line" /\ dense sp "in" /\ dense sp ("""" ++ ",").

    (** The documented line, for every record that has a meaning, whatever was formatted before. *)
    Theorem C61_line : forall separator hs E l e, carries loads show sp E l e ->
      exists e0 w text, first_circumstances separator hs (E, l) e0 /\ column (levels e0) w /\
        answer separator hs (E, l) = Ok text /\ line (names_of (levels E)) sp w separator e text.
    Proof.
      intros separator hs E l e C. destruct (answer_is separator hs (E, l)) as (e0 & F & A).
      destruct (formatted_line loads show sp sp_blank sp_nl sp_words E l e C e0 separator) as (text & T & L).
      exists e0, (level_width e0), text. split; [exact F|]. split; [apply level_width_column|]. split; [rewrite A; exact T|exact L].
    Qed.
  End White.

  (** The first four columns have fixed widths. *)
  Theorem C61_columns : forall names w separator e text, line names sp w separator e text -> exists n l s a rest, level_text names e n /\
    text = (time_piece e ++ " | " ++ l ++ " | " ++ s ++ " | " ++ a ++ " | " ++ rest)%string /\
    String.length l = Nat.max w (String.length n) /\ String.length s = 7 /\ String.length a = 6.
  Proof.
    intros names w separator e text (n & l & s & a & T & L & S & A & ->). exists n, l, s, a, (join " | " (later_pieces sp e) ++ separator)%string.
    split; [exact T|split; [|split; [apply (in_column_length _ _ _ L)|split]]].
    - assert (N : later_pieces sp e <> []) by (unfold later_pieces; destruct (e_message e); discriminate).
      do 4 (rewrite join_cons by (try discriminate; exact N)). rewrite <- !str_app_assoc. reflexivity.
    - rewrite (in_column_length _ _ _ S). unfold success_piece. destruct (e_success e) as [[|]|]; reflexivity.
    - rewrite (in_column_length _ _ _ A). unfold auto_piece. destruct (e_auto e); reflexivity.
  Qed.

  (** Any record at all: the line consists of pieces for fields of the record, each at most once: first the standard ones, in the fixed order, then the others, in the
      order of the record, each with its name before it; of the others none is left out except the five that are used inside other pieces and those that are None. *)
  Inductive sublist {A} : list A -> list A -> Prop :=
  | SL_nil : sublist [] []
  | SL_skip x a b : sublist a b -> sublist a (x :: b)
  | SL_keep x a b : sublist a b -> sublist (x :: a) (x :: b).
  Definition hidden (n : string) : Prop := In n ["module"; "service_name"; "exception_type"; "exception_message"; "class"].
  (** The text of a field that the formatter does not know; a field called level, success or auto that gets here is set in a column. *)
  Definition piece_of (f : string * val) (p : string) : Prop :=
    exists t, text_of (snd f) = Ok t /\
      let core := (fst f ++ ": " ++ match snd f with VStr _ => quoted t | _ => t end)%string in
      p = core \/ (In (fst f) ["level"; "success"; "auto"] /\ exists w, in_column w core p).
  Lemma base_sub : forall l hs, sublist (dkeys (base_pieces l hs)) (map fst hs).
  Proof.
    induction hs as [|h hs IH]; cbn [base_pieces flat_map map]; [constructor|]. destruct (base_value l (fst h) (snd h)); cbn [app]; [|apply SL_skip; exact IH].
    unfold dkeys; cbn [map fst]. apply SL_keep. exact IH.
  Qed.
  Theorem C61_fields : forall separator hs E l text, NoDup (dkeys l) -> answer separator hs (E, l) = Ok text -> exists bn bt custom ps,
    text = (join " | " (bt ++ ps) ++ separator)%string /\ length bn = length bt /\ sublist bn base_names /\
    sublist custom l /\ Forall2 piece_of custom ps /\
    (forall n v, In (n, v) l -> In (n, v) custom <-> ~ In n bn /\ ~ hidden n /\ v <> VNone).
  Proof.
    intros separator hs E l text ND A. destruct (answer_is separator hs (E, l)) as (e0 & _ & A'). rewrite A' in A. clear A'. cbn [fst snd] in A.
    unfold formatted in A. rewrite get_dict_spec in A by exact ND. cbv zeta in A. set (base := base_pieces l (field_handlers loads show sp E l)) in *.
    destruct (mapR extra_piece (filter (candidate base) l)) as [ps|x] eqn:M; cbn [bindR] in A; [|discriminate].
    assert (T : text = format separator (width_and_align (norms e0) (base ++ ps))) by congruence. clear A.
    assert (NDb : NoDup (dkeys base)) by (apply base_keys_nodup, base_names_nodup).
    pose proof (mapR_ok_keys _ _ M) as Ek.
    assert (NDp : NoDup (dkeys (base ++ ps))).
    { unfold dkeys in *. rewrite map_app. apply NoDup_app'; [exact NDb|rewrite Ek; apply NoDup_map_filter; exact ND|].
      intros n Hb Hx. rewrite Ek in Hx. apply in_map_iff in Hx as (f & <- & Hf). apply filter_In in Hf as (_ & Hc). unfold candidate in Hc.
      apply Bool.andb_true_iff in Hc as (Hc & _). apply Bool.andb_true_iff in Hc as (Hc & _). apply Bool.negb_true_iff in Hc.
      apply (dmem_false String.eqb String.eqb_spec) in Hc. contradiction. }
    rewrite width_spec in T by exact NDp. rewrite norms_spec in T. cbn [fold_left fst snd] in T.
    set (al := fun d : list (string * string) => map (upd "auto" (centred 6)) (map (upd "success" (centred 7)) (map (upd "level" (centred (level_width e0))) d))).
    change (map (upd "auto" (centred 6)) (map (upd "success" (centred 7)) (map (upd "level" (centred (level_width e0))) (base ++ ps)))) with (al (base ++ ps)) in T.
    assert (Al : al (base ++ ps) = al base ++ al ps) by (unfold al; rewrite !map_app; reflexivity).
    exists (dkeys base), (dvals (al base)), (filter (candidate base) l), (dvals (al ps)).
    split; [rewrite T; unfold format; rewrite Al; unfold dvals; rewrite map_app; reflexivity|].
    split; [unfold al, dkeys, dvals; rewrite !map_length; reflexivity|].
    split; [apply (base_sub l (field_handlers loads show sp E l))|].
    split; [|split].
    - generalize (candidate base) as g. clear. intros g. induction l as [|f l IH]; cbn [filter]; [constructor|].
      destruct (g f); [apply SL_keep|apply SL_skip]; exact IH.
    - assert (P : Forall2 (fun f p => fst p = fst f /\ exists t, text_of (snd f) = Ok t /\ snd p = (fst f ++ ": " ++ match snd f with VStr _ => quoted t | _ => t end)%string)
        (filter (candidate base) l) ps).
      { revert M. generalize (filter (candidate base) l) as fs. clear. intros fs; revert ps. induction fs as [|f fs IH]; intros ps M; cbn [mapR] in M; [injection M as <-; constructor|].
        destruct (extra_piece f) as [p|] eqn:P; cbn [bindR] in M; [|discriminate]. destruct (mapR extra_piece fs) as [qs|]; cbn [bindR] in M; [|discriminate]. injection M as <-.
        constructor; [|apply IH; reflexivity]. split; [apply extra_piece_name; exact P|]. unfold extra_piece in P. destruct f as [n v]; cbn [fst snd] in *.
        destruct v as [|b|z|s|o]; cbn [text_of bindR] in P |- *; try (injection P as <-; eexists; split; reflexivity).
        destruct (o_text o) as [t|]; cbn [bindR] in P; [|discriminate]. injection P as <-. eexists; split; reflexivity. }
      clear -P. induction P as [|f p fs ps (N & t & T & S) P IH]; [constructor|]. unfold al, dvals in *. cbn [map]. constructor; [|exact IH].
      exists t. split; [exact T|]. cbv zeta. destruct p as [pn pt]; cbn [fst snd] in *. subst pn pt. unfold upd; cbn [fst snd].
      destruct (String.eqb_spec "level" (fst f)) as [E1|_]; cbn [fst snd].
      + right. rewrite <- E1. cbn [String.eqb Ascii.eqb Bool.eqb snd]. split; [left; reflexivity|]. eexists; apply centred_in_column.
      + destruct (String.eqb_spec "success" (fst f)) as [E2|_]; cbn [fst snd].
        * right. rewrite <- E2. cbn [String.eqb Ascii.eqb Bool.eqb snd]. split; [right; left; reflexivity|]. eexists; apply centred_in_column.
        * destruct (String.eqb_spec "auto" (fst f)) as [E3|_]; cbn [snd]; [|left; reflexivity].
          right. rewrite <- E3. split; [right; right; left; reflexivity|]. eexists; apply centred_in_column.
    - intros n v I. rewrite filter_In. unfold candidate; cbn [fst snd]. rewrite !Bool.andb_true_iff, !Bool.negb_true_iff.
      rewrite (dmem_false String.eqb String.eqb_spec).
      assert (Hh : existsb (String.eqb n) forbidden_extra_fields = false <-> ~ hidden n).
      { split.
        - intros H Hn. assert (X : existsb (String.eqb n) forbidden_extra_fields = true); [|congruence]. apply existsb_exists. exists n. split; [exact Hn|apply String.eqb_refl].
        - intros H. apply Bool.not_true_is_false. intros X. apply existsb_exists in X as (m & Hm & Em). apply String.eqb_eq in Em; subst m. exact (H Hm). }
      rewrite Hh. destruct v; cbn [is_none]; intuition congruence.
  Qed.

  (** A line is produced whenever every object in the record can be written; a custom field that cannot be written costs the whole record. *)
  Theorem C61_produced : forall separator hs E l, NoDup (dkeys l) -> (forall n o, In (n, VObj o) l -> exists t, o_text o = Ok t) ->
    exists text, answer separator hs (E, l) = Ok text.
  Proof.
    intros separator hs E l ND W. destruct (answer_is separator hs (E, l)) as (e0 & _ & ->). cbn [fst snd]. unfold formatted. rewrite get_dict_spec by exact ND. cbv zeta.
    destruct (mapR_all extra_piece (filter (candidate (base_pieces l (field_handlers loads show sp E l))) l)) as (ps & ->).
    - intros [n v] H. apply filter_In in H as (H & _). unfold extra_piece; cbn [fst snd]. destruct v as [|b|z|s|o]; cbn [text_of bindR]; try (eexists; reflexivity).
      destruct (W n o H) as (t & ->). eexists; reflexivity.
    - cbn [bindR]. eexists; reflexivity.
  Qed.
  Theorem C61_lost : forall separator hs E l n o x, NoDup (dkeys l) -> In (n, VObj o) l -> o_text o = Err x -> ~ In n base_names -> ~ hidden n ->
    exists y, answer separator hs (E, l) = Err y.
  Proof.
    intros separator hs E l n o x ND I X NB NH. destruct (answer separator hs (E, l)) as [text|y] eqn:A; [exfalso|exists y; reflexivity].
    destruct (C61_fields separator hs E l text ND A) as (bn & bt & custom & ps & _ & _ & SB & _ & P & K).
    assert (C : In (n, VObj o) custom).
    { apply K; [exact I|]. split; [|split; [exact NH|discriminate]]. intros H. apply NB. revert H. clear -SB. revert SB. generalize base_names as b.
      intros b SB; induction SB as [|y a b SB IH|y a b SB IH]; intros H; [destruct H|right; apply IH; exact H|]. destruct H as [->|H]; [left; reflexivity|right; apply IH; exact H]. }
    clear -P C X. induction P as [|f p custom ps (t & T & _) P IH]; [destruct C|]. destruct C as [->|C]; [cbn in T; congruence|apply IH; exact C].
  Qed.
  (** Fields that do not have the form the formatter expects are shown as they are. *)
  Inductive raw (l : log) : string -> Prop :=
  | R_work s : get l "time_of_work" = VStr s -> raw l s
  | R_inputs s x : get l "input_variables" = VStr s -> s <> "" -> loads s = Err x -> raw l s
  | R_trace s x : get l "traceback" = VStr s -> s <> "" -> loads s = Err x -> raw l s
  | R_frame s js f : get l "traceback" = VStr s -> s <> "" -> loads s = Ok (JArr js) -> In (JStr f) js -> length (words sp f) < 6 -> raw l s
  | R_locals s x : get l "local_variables" = VStr s -> s <> "" -> loads s = Err x -> raw l ("local variables: " ++ s)
  | R_result s : get l "result" = VStr s -> loads s = Err EValueError -> raw l ("result: " ++ s ++ " (<class 'str'>)")
  | R_result_other s x : get l "result" = VStr s -> loads s = Err x -> x <> EValueError -> raw l s
  | R_where s n z : get l "function" = VStr s -> In n ["module"; "class"] -> get l n = VInt z -> raw l s.
  Lemma base_in : forall l hs n x s, In (n, x) hs -> base_value l n x = Some s -> In (n, s) (base_pieces l hs).
  Proof.
    induction hs as [|h hs IH]; intros n x s I B; [destruct I|]. cbn [base_pieces flat_map]. destruct I as [-> |I].
    - cbn [fst snd]. rewrite B. left; reflexivity.
    - apply in_or_app; right. apply (IH n x s I B).
  Qed.
  Lemma get_some : forall l n s, get l n = VStr s -> dget String.eqb l n = Some (VStr s).
  Proof. intros l n s H. unfold get in H. destruct (dget String.eqb l n); [congruence|discriminate]. Qed.
  Lemma raw_piece : forall E l s, raw l s -> exists n, In (n, s) (base_pieces l (field_handlers loads show sp E l)) /\ ~ In n ["level"; "success"; "auto"].
  Proof.
    intros E l s R. destruct R as [s G|s x G N L|s x G N L|s js f G N L Hf Hw|s x G N L|s G L|s x G L X|s n z G I M].
    - exists "time_of_work". split; [|cbn; intuition discriminate]. eapply base_in; [do 6 right; left; reflexivity|]. unfold x_time_of_work. rewrite G. cbn [fixed_of bindR base_value].
      rewrite (get_some _ _ _ G). reflexivity.
    - exists "input_variables". split; [|cbn; intuition discriminate]. eapply base_in; [do 7 right; left; reflexivity|]. unfold x_input_variables, json_variables_to_text. rewrite G. cbn [is_none truth_of bindR].
      destruct (String.eqb_spec s "") as [->|_]; [congruence|]. cbn [negb loads_val]. rewrite L. cbn [bindR base_value]. rewrite (get_some _ _ _ G). reflexivity.
    - exists "traceback". split; [|cbn; intuition discriminate]. eapply base_in; [do 11 right; left; reflexivity|]. unfold x_traceback. rewrite G. cbn [truth_of bindR].
      destruct (String.eqb_spec s "") as [->|_]; [congruence|]. cbn [negb loads_val]. rewrite L. cbn [bindR base_value]. rewrite (get_some _ _ _ G). reflexivity.
    - exists "traceback". split; [|cbn; intuition discriminate]. eapply base_in; [do 11 right; left; reflexivity|]. unfold x_traceback. rewrite G. cbn [truth_of bindR].
      destruct (String.eqb_spec s "") as [->|_]; [congruence|]. cbn [negb loads_val]. rewrite L. cbn [bindR].
      assert (J : jtruth (JArr js) = true) by (destruct js; [destruct Hf|reflexivity]). rewrite J. cbn [negb iterate bindR].
      assert (B : exists x, mapR (trace_line sp) js = Err x).
      { assert (T : exists x, trace_line sp (JStr f) = Err x).
        { unfold trace_line. cbv zeta. assert (N5 : nth_error (words sp f) 5 = None) by (apply nth_error_None; lia).
          unfold index at 3. rewrite N5. unfold index. destruct (nth_error (words sp f) 1); cbn [bindR]; [|eauto]. destruct (nth_error (words sp f) 3); cbn [bindR]; eauto. }
        clear -Hf T. induction js as [|j js IH]; [destruct Hf|]. cbn [mapR]. destruct Hf as [->|Hf].
        - destruct T as (x & ->). cbn [bindR]. eauto.
        - destruct (IH Hf) as (x & ->). destruct (trace_line sp j); cbn [bindR]; eauto. }
      destruct B as (x & ->). cbn [bindR base_value]. rewrite (get_some _ _ _ G). reflexivity.
    - exists "local_variables". split; [|cbn; intuition discriminate]. eapply base_in; [do 8 right; left; reflexivity|]. unfold x_local_variables, json_variables_to_text. rewrite G. cbn [is_none truth_of bindR].
      destruct (String.eqb_spec s "") as [->|_]; [congruence|]. cbn [negb loads_val]. rewrite L. reflexivity.
    - exists "result". split; [|cbn; intuition discriminate]. eapply base_in; [do 9 right; left; reflexivity|]. unfold x_result. rewrite (get_some _ _ _ G), L. reflexivity.
    - exists "result". split; [|cbn; intuition discriminate]. eapply base_in; [do 9 right; left; reflexivity|]. unfold x_result. rewrite (get_some _ _ _ G), L. cbn [bindR].
      assert (K : match x with EValueError => plain_result (VStr s) | _ => Err x end = Err x) by (destruct x; congruence). 
      replace (match Err x with Ok t => Ok (Some ("result: " ++ t)%string) | Err EValueError => plain_result (VStr s) | Err x => Err x end) with (@Err (option string) x) by (destruct x; congruence).
      unfold base_value. rewrite (get_some _ _ _ G). reflexivity.
    - exists "function". split; [|cbn; intuition discriminate]. eapply base_in; [do 5 right; left; reflexivity|]. unfold x_function. rewrite G.
      assert (D : exists y, dotted [service_val E; get l "module"; get l "class"; VStr s] = Err y).
      { unfold dotted. cbn [filter]. destruct I as [<-|[<-|[]]]; rewrite M; cbn [is_none negb].
        - destruct (service_val E); cbn [is_none negb mapR as_str bindR]; eexists; reflexivity.
        - destruct (service_val E); cbn [is_none negb mapR as_str bindR]; try (eexists; reflexivity); destruct (get l "module"); cbn [is_none negb mapR as_str bindR]; eexists; reflexivity. }
      destruct D as (y & ->). cbn [bindR base_value]. rewrite (get_some _ _ _ G). reflexivity.
  Qed.
  Theorem C61_raw : forall separator hs E l s text, NoDup (dkeys l) -> raw l s -> answer separator hs (E, l) = Ok text ->
    exists before behind, text = (join " | " (before ++ s :: behind) ++ separator)%string.
  Proof.
    intros separator hs E l s text ND R A. destruct (answer_is separator hs (E, l)) as (e0 & _ & A'). rewrite A' in A. clear A'. cbn [fst snd] in A.
    destruct (raw_piece E l s R) as (n & I & NI).
    unfold formatted in A. rewrite get_dict_spec in A by exact ND. cbv zeta in A. set (base := base_pieces l (field_handlers loads show sp E l)) in *.
    destruct (mapR extra_piece (filter (candidate base) l)) as [ps|x] eqn:M; cbn [bindR] in A; [|discriminate].
    assert (T : text = format separator (width_and_align (norms e0) (base ++ ps))) by congruence. clear A.
    assert (NDb : NoDup (dkeys base)) by (apply base_keys_nodup, base_names_nodup).
    pose proof (mapR_ok_keys _ _ M) as Ek.
    assert (NDp : NoDup (dkeys (base ++ ps))).
    { unfold dkeys in *. rewrite map_app. apply NoDup_app'; [exact NDb|rewrite Ek; apply NoDup_map_filter; exact ND|].
      intros q Hb Hx. rewrite Ek in Hx. apply in_map_iff in Hx as (f & <- & Hf). apply filter_In in Hf as (_ & Hc). unfold candidate in Hc.
      apply Bool.andb_true_iff in Hc as (Hc & _). apply Bool.andb_true_iff in Hc as (Hc & _). apply Bool.negb_true_iff in Hc.
      apply (dmem_false String.eqb String.eqb_spec) in Hc. contradiction. }
    rewrite width_spec in T by exact NDp. rewrite norms_spec in T. cbn [fold_left fst snd] in T.
    assert (U : forall k (f : string -> string) d, In k ["level"; "success"; "auto"] -> In (n, s) d -> In (n, s) (map (upd k f) d)).
    { intros k f d Hk Hd. apply in_map_iff. exists (n, s). split; [|exact Hd]. unfold upd; cbn [fst]. destruct (String.eqb_spec k n) as [->|_]; [contradiction|reflexivity]. }
    assert (I2 : In (n, s) (base ++ ps)) by (apply in_or_app; left; exact I).
    apply (U "level" (centred (level_width e0))) in I2; [|left; reflexivity]. apply (U "success" (centred 7)) in I2; [|right; left; reflexivity].
    apply (U "auto" (centred 6)) in I2; [|right; right; left; reflexivity]. apply (in_map snd) in I2. cbn [snd] in I2. apply in_split in I2 as (b & r & I2).
    exists b, r. rewrite T. unfold format, dvals. rewrite I2. reflexivity.
  Qed.
End Props.
Print Assumptions C61_raw.
Print Assumptions C61_line.
Print Assumptions C61_columns.
Print Assumptions C61_fields.
Print Assumptions C61_produced.
Print Assumptions C61_lost.
