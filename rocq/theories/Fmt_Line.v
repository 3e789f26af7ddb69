(** The line of a record, piece by piece. *)
From Verif Require Import Base Text Json_Model Fmt_Model Numeral Fmt_Spec Fmt_Proofs.
From Verif Require Settings_Model.
From Coq Require Import ZArith.
Local Open Scope string_scope.
Local Open Scope list_scope.

Lemma join_cons : forall sep x l, l <> [] -> join sep (x :: l) = (x ++ sep ++ join sep l)%string.
Proof. intros sep x [|y l] N; [contradiction|reflexivity]. Qed.
Lemma join_app : forall sep a b, a <> [] -> b <> [] -> join sep (a ++ b) = (join sep a ++ sep ++ join sep b)%string.
Proof.
  induction a as [|x a IH]; intros b Na Nb; [contradiction|]. destruct a as [|y a].
  - cbn [app]. rewrite join_cons by exact Nb. reflexivity.
  - cbn [app]. rewrite (join_cons sep x (y :: (a ++ b))) by discriminate. rewrite (join_cons sep x (y :: a)) by discriminate.
    change (y :: a ++ b) with ((y :: a) ++ b). rewrite IH by (assumption || discriminate). rewrite <- !str_app_assoc. reflexivity.
Qed.
Lemma join_nonempty : forall sep l x, In x l -> x <> "" -> join sep l <> "".
Proof.
  intros sep l x I N E. destruct l as [|y l]; [destruct I|]. destruct l as [|z l].
  - destruct I as [->|[]]. exact (N E).
  - rewrite join_cons in E by discriminate. assert (A : forall a b, (a ++ b)%string = "" -> a = "" /\ b = "") by (intros [|c a] b H; [split; [reflexivity|exact H]|discriminate]).
    apply A in E as (Ey & E). apply A in E as (_ & E). destruct I as [->|I]; [exact (N Ey)|]. revert E I. generalize (z :: l) as m. clear -A N.
    induction m as [|w m IH]; intros E I; [destruct I|]. destruct m as [|v m]; [destruct I as [->|[]]; exact (N E)|].
    rewrite join_cons in E by discriminate. apply A in E as (Ew & E). apply A in E as (_ & E). destruct I as [->|I]; [exact (N Ew)|]. apply IH; assumption.
Qed.

Lemma NoDup_app' : forall {A} (a b : list A), NoDup a -> NoDup b -> (forall x, In x a -> ~ In x b) -> NoDup (a ++ b).
Proof.
  induction a as [|x a IH]; intros b Na Nb D; [exact Nb|]. inversion Na as [|y m N Na']; subst. cbn [app]. constructor.
  - intros H; apply in_app_or in H. destruct H as [H|H]; [contradiction|]. exact (D x (or_introl eq_refl) H).
  - apply IH; [exact Na'|exact Nb|]. intros y Hy; apply D; right; exact Hy.
Qed.
Lemma NoDup_map_filter : forall {A B} (g : A -> B) f l, NoDup (map g l) -> NoDup (map g (filter f l)).
Proof.
  induction l as [|x l IH]; intros N; cbn [filter map] in *; [constructor|]. inversion N as [|y m Nx N']; subst. destruct (f x); [|apply IH; exact N'].
  cbn [map]. constructor; [|apply IH; exact N']. intros H; apply Nx. apply in_map_iff in H as (z & <- & Hz). apply filter_In in Hz as (Hz & _). apply in_map; exact Hz.
Qed.

Definition level_piece (names : Z -> option string) (e : entry) : string :=
  match e_level e with None => "UNKNOWN" | Some z => match names z with Some n => n | None => Settings_Model.str_of_Z z end end.
Lemma level_piece_text : forall names e, level_text names e (level_piece names e).
Proof. intros names e. unfold level_text, level_piece. destruct (e_level e) as [z|]; [destruct (names z); [|apply str_decimal]|]; reflexivity. Qed.
Lemma idle_is : forall c, zero_or_dot c = idle c.
Proof. intros [[|] [|] [|] [|] [|] [|] [|] [|]]; reflexivity. Qed.
Lemma drop_idle_snoc : forall l c, drop_idle (l ++ [c]) = match drop_idle l with [] => if idle c then [] else [c] | r => r ++ [c] end.
Proof. induction l as [|x l IH]; intros c; cbn; [reflexivity|]. destruct (idle x); [apply IH|reflexivity]. Qed.
Lemma rstrip_trimmed : forall w, rstrip zero_or_dot w = trimmed w.
Proof.
  unfold trimmed. induction w as [|c w IH]; [reflexivity|]. cbn [rstrip list_ascii_of_string rev]. rewrite IH, drop_idle_snoc, idle_is.
  destruct (drop_idle (rev (list_ascii_of_string w))) as [|x r]; [cbn; destruct (idle c); reflexivity|].
  rewrite rev_app_distr. cbn [rev app string_of_list_ascii].
  destruct (rev r ++ [x]) as [|y q] eqn:Q; [destruct (rev r); discriminate|]. reflexivity.
Qed.

Section Line.
  Variable loads : string -> Res json.
  Variable show : json -> string.
  Variable sp : ascii -> bool.
  (** Blanks and line ends are white space; the fixed words of a traceback are not. *)
  Hypothesis sp_blank : sp " " = true.
  Hypothesis sp_nl : sp (ascii_of_nat 10) = true.
  Hypothesis sp_words : dense sp "File" /\ dense sp "line" /\ dense sp "in" /\ dense sp ("""" ++ ",").

  Lemma human_var : forall j x, carries_var show j x -> human show j = Ok (var_text x).
  Proof.
    intros j x (d & v & -> & V & T & Y). unfold human, var_text. cbn [jget bindR]. rewrite V, Y. cbn [bindR is_type_str jtext]. rewrite T. reflexivity.
  Qed.
  Lemma document_vars : forall doc a k, carries_vars show doc a k -> document_to_text show doc = Ok (Some (vars_text a k)).
  Proof.
    intros doc a k (d & -> & N & A & K). unfold document_to_text; cbn [jget bindR].
    destruct a as [|x a]; [rewrite A|destruct A as (l & -> & FA)]; cbn [is_jnull andb iterate bindR].
    - destruct k as [|y k]; [destruct N; contradiction|]. destruct K as (l & -> & FK). cbn [is_jnull andb jitems bindR app].
      rewrite (mapR_Forall2 _ (fun kx => fst kx ++ " = " ++ var_text (snd kx))%string _ _ _ (fun kj kx (H : fst kj = fst kx /\ carries_var show (snd kj) (snd kx)) =>
        eq_trans (f_equal (fun r => bindR r (fun t => Ok (fst kj ++ " = " ++ t)%string)) (human_var _ _ (proj2 H)))
                 (f_equal (fun n => Ok (n ++ " = " ++ var_text (snd kx))%string) (proj1 H))) FK).
      cbn [bindR app]. unfold vars_text. cbn [map app join]. reflexivity.
    - rewrite (mapR_Forall2 _ var_text _ _ _ human_var FA). cbn [bindR app].
      destruct k as [|y k]; [rewrite K|destruct K as (l2 & -> & FK)]; cbn [is_jnull andb jitems bindR app].
      + unfold vars_text. cbn [map app join]. rewrite app_nil_r. reflexivity.
      + rewrite (mapR_Forall2 _ (fun kx => fst kx ++ " = " ++ var_text (snd kx))%string _ _ _ (fun kj kx (H : fst kj = fst kx /\ carries_var show (snd kj) (snd kx)) =>
          eq_trans (f_equal (fun r => bindR r (fun t => Ok (fst kj ++ " = " ++ t)%string)) (human_var _ _ (proj2 H)))
                   (f_equal (fun n => Ok (n ++ " = " ++ var_text (snd kx))%string) (proj1 H))) FK).
        cbn [bindR app]. unfold vars_text. rewrite join_app by discriminate. reflexivity.
  Qed.

  Lemma dense_app : forall a b, dense sp a -> dense sp b -> dense sp (a ++ b).
  Proof. induction a as [|c a IH]; intros b A B; [exact B|]. cbn in A |- *. destruct A as (E & A). split; [exact E|apply IH; assumption]. Qed.
  Lemma words_trailing : forall s t, spaces sp t -> words sp (s ++ t) = words sp s.
  Proof.
    induction s as [|a s IH]; intros t T; cbn [String.append]; [rewrite words_spaces by exact T; reflexivity|].
    cbn [words]. destruct (sp a) eqn:Ea; [apply IH; exact T|]. destruct s as [|b s]; cbn [String.append].
    - destruct t as [|c t]; [reflexivity|]. destruct T as (Ec & T). rewrite Ec. change (words sp (String c t)) with (words sp (String c t)).
      rewrite words_spaces by (split; assumption). reflexivity.
    - change (String b (s ++ t)) with (String b s ++ t)%string. rewrite IH by exact T. reflexivity.
  Qed.
  Lemma word_then : forall w t, w <> "" -> dense sp w -> words sp (w ++ String " " t) = w :: words sp t.
  Proof.
    intros w t N D. rewrite words_dense; [|exact N|exact D|right; exists " "%char, t; split; [reflexivity|exact sp_blank]]. cbn [words]. rewrite sp_blank. reflexivity.
  Qed.
  Lemma trace_frame : forall j f, carries_frame sp j f -> trace_line sp j = Ok (frame_text sp f).
  Proof.
    intros j f (-> & Dp & Dn & Df & Nf). destruct sp_words as (WF & Wl & Wi & Wq). unfold trace_line.
    assert (Q : dense sp (quoted (f_path f) ++ ",")).
    { unfold quoted. cbn in Wq. destruct Wq as (Wq & Wc & _). cbn [String.append]. split; [exact Wq|]. apply dense_app; [|cbn; auto]. apply dense_app; [exact Dp|cbn; auto]. }
    assert (W : words sp ("  File " ++ quoted (f_path f) ++ ", line " ++ f_num f ++ ", in " ++ f_name f ++ nl ++ "    " ++ f_source f ++ nl)%string =
      ["File"; (quoted (f_path f) ++ ",")%string; "line"; (f_num f ++ ",")%string; "in"; f_name f] ++ words sp (f_source f)).
    { change ("  File " ++ quoted (f_path f) ++ ", line " ++ f_num f ++ ", in " ++ f_name f ++ nl ++ "    " ++ f_source f ++ nl)%string
        with ("  " ++ ("File" ++ String " " (quoted (f_path f) ++ ("," ++ (String " " ("line" ++ String " " (f_num f ++ ("," ++ String " " ("in" ++ String " " (f_name f ++ nl ++ "    " ++ f_source f ++ nl))))))))))%string.
      rewrite spaces_app by (cbn; auto). rewrite word_then by (assumption || discriminate).
      rewrite (str_app_assoc (quoted (f_path f)) ","). rewrite word_then; [|destruct (quoted (f_path f)) eqn:EQ; discriminate|exact Q].
      rewrite word_then by (assumption || discriminate). rewrite (str_app_assoc (f_num f) ",").
      rewrite word_then; [|destruct (f_num f); discriminate|apply dense_app; [exact Dn|cbn in Wq |- *; tauto]].
      rewrite word_then by (assumption || discriminate).
      rewrite words_dense; [|exact Nf|exact Df|right; exists (ascii_of_nat 10); eexists; split; [reflexivity|exact sp_nl]].
      cbn [app]. do 6 f_equal. rewrite (str_app_assoc nl "    "). rewrite spaces_app by (cbn; rewrite ?sp_nl, ?sp_blank; auto 8).
      apply words_trailing. cbn. auto. }
    rewrite W. cbn [app index nth_error bindR skipn]. f_equal. unfold frame_text. rewrite <- !str_app_assoc. reflexivity.
  Qed.

  Lemma writes_text : forall v t, writes v t -> text_of v = Ok t /\ (forall s, v <> VStr s) /\ v <> VNone.
  Proof.
    intros [|b|z|s|o] t W; cbn in W; try contradiction; (split; [cbn; try exact W; subst t|split; [intros s'; discriminate|discriminate]]); [destruct b; reflexivity|reflexivity].
  Qed.
  Lemma decimals_fixed : forall v t, eight_decimals v t -> fixed_of v = Ok t.
  Proof. intros [|b|z|s|o] t W; cbn in W |- *; try contradiction; try exact W; subst t; reflexivity. Qed.

  Section One.
    Variables (E : env) (l : log) (e : entry).
    Hypothesis C : carries loads show sp E l e.

    Lemma h_time : x_time l = Ok (Some (time_piece e)).
    Proof.
      pose proof (c_time _ _ _ _ _ _ C) as H. unfold x_time, time_piece. destruct (e_time e) as [t|]; [|rewrite H; reflexivity].
      destruct H as [W| ->]; [|reflexivity]. destruct (writes_text _ _ W) as (T & _ & N). destruct (get l "time"); [contradiction|..]; rewrite T; reflexivity.
    Qed.
    Lemma h_level : x_level E l = Ok (Some (level_piece (names_of (levels E)) e)).
    Proof. pose proof (c_level _ _ _ _ _ _ C) as H. unfold x_level, level_piece. rewrite H. destruct (e_level e); reflexivity. Qed.
    Lemma h_success : x_success l = Ok (Some (success_piece e)).
    Proof. pose proof (c_success _ _ _ _ _ _ C) as H. unfold x_success, success_piece. rewrite H. destruct (e_success e) as [[|]|]; reflexivity. Qed.
    Lemma h_auto : x_auto l = Ok (Some (auto_piece e)).
    Proof. pose proof (c_auto _ _ _ _ _ _ C) as H. unfold x_auto, auto_piece. destruct H as [-> |(-> & ->)]; reflexivity. Qed.
    Lemma h_message : x_message l = Ok (option_map quoted (e_message e)).
    Proof. pose proof (c_message _ _ _ _ _ _ C) as H. unfold x_message. rewrite H. destruct (e_message e); reflexivity. Qed.
    Lemma dotted_spec : forall os, dotted (map opt_str os) = Ok (join "." (somes os)).
    Proof.
      intros os. unfold dotted. assert (M : mapR as_str (filter (fun v => negb (is_none v)) (map opt_str os)) = Ok (somes os)).
      { induction os as [|[s|] os IH]; [reflexivity| |exact IH]. cbn [map opt_str filter is_none negb mapR as_str bindR]. rewrite IH. reflexivity. }
      rewrite M. reflexivity.
    Qed.
    Lemma somes_app : forall {A} (a b : list (option A)), somes (a ++ b) = somes a ++ somes b.
    Proof. intros. unfold somes. apply flat_map_app. Qed.
    Lemma h_function : x_function E l = Ok (Some (where_piece e)).
    Proof.
      pose proof (c_function _ _ _ _ _ _ C) as Hf. pose proof (c_service _ _ _ _ _ _ C) as Hs. pose proof (c_module _ _ _ _ _ _ C) as Hm. pose proof (c_class _ _ _ _ _ _ C) as Hc.
      destruct (c_place _ _ _ _ _ _ C) as (P1 & P2 & P3).
      unfold x_function, where_piece. assert (S : service_val E = opt_str (e_service e)) by (unfold service_val; rewrite Hs; destruct (e_service e); reflexivity).
      rewrite S, Hf, Hm, Hc. destruct (e_function e) as [f|]; cbn [opt_str].
      - change [opt_str (e_service e); opt_str (e_module e); opt_str (e_class e); VStr f] with (map opt_str ([e_service e; e_module e; e_class e] ++ [Some f])).
        rewrite dotted_spec, somes_app. cbn [bindR]. reflexivity.
      - change [opt_str (e_service e); opt_str (e_module e); opt_str (e_class e)] with (map opt_str [e_service e; e_module e; e_class e]).
        rewrite dotted_spec. cbn [bindR].
        assert (N : somes [e_service e; e_module e; e_class e] <> [] -> join "." (somes [e_service e; e_module e; e_class e]) <> "").
        { intros Q. destruct (e_service e) as [s|]; [apply (join_nonempty _ _ s); [left; reflexivity|congruence]|].
          destruct (e_module e) as [m|]; [apply (join_nonempty _ _ m); [left; reflexivity|congruence]|].
          destruct (e_class e) as [c|]; [apply (join_nonempty _ _ c); [left; reflexivity|congruence]|]. elim Q; reflexivity. }
        revert N. generalize (somes [e_service e; e_module e; e_class e]) as q. intros [|x q] N; [reflexivity|].
        destruct (String.eqb_spec (join "." (x :: q)) "") as [Q|_]; [elim N; [discriminate|exact Q]|reflexivity].
    Qed.
    Lemma h_work : x_time_of_work l = Ok (option_map (fun w => "time of work: " ++ trimmed w ++ " sec.")%string (e_work e)).
    Proof.
      pose proof (c_work _ _ _ _ _ _ C) as H. unfold x_time_of_work. destruct (e_work e) as [t|]; [apply decimals_fixed in H|rewrite H; reflexivity].
      destruct (get l "time_of_work"); cbn [fixed_of] in H |- *; try discriminate; rewrite H; cbn [bindR option_map]; rewrite <- rstrip_trimmed; reflexivity.
    Qed.
    Lemma vars_of : forall s doc a k, s <> "" -> loads s = Ok doc -> carries_vars show doc a k -> json_variables_to_text loads show (VStr s) = Ok (Some (vars_text a k)).
    Proof.
      intros s doc a k N L K. unfold json_variables_to_text. cbn [is_none truth_of bindR]. destruct (String.eqb_spec s "") as [|_]; [contradiction|].
      cbn [negb loads_val]. rewrite L. cbn [bindR]. apply document_vars; exact K.
    Qed.
    Lemma h_inputs : x_input_variables loads show l = Ok (option_map (fun v => "input variables: " ++ vars_text (fst v) (snd v))%string (e_inputs e)).
    Proof.
      pose proof (c_inputs _ _ _ _ _ _ C) as H. unfold x_input_variables. destruct (e_inputs e) as [[a k]|]; [|rewrite H; reflexivity].
      destruct H as (s & doc & -> & N & L & K). rewrite (vars_of s doc a k N L K). reflexivity.
    Qed.
    Lemma h_locals : x_local_variables loads show l = Ok (option_map (fun v => "local variables: " ++ vars_text (fst v) (snd v))%string (e_locals e)).
    Proof.
      pose proof (c_locals _ _ _ _ _ _ C) as H. unfold x_local_variables. destruct (e_locals e) as [[a k]|]; [|rewrite H; reflexivity].
      destruct H as (s & doc & -> & N & L & K). rewrite (vars_of s doc a k N L K). reflexivity.
    Qed.
    Lemma get_some : forall n v, get l n = v -> v <> VNone -> dget String.eqb l n = Some v.
    Proof. intros n v H N. unfold get in H. destruct (dget String.eqb l n); congruence. Qed.
    Lemma h_result : x_result loads show l = Ok (option_map (fun x => "result: " ++ var_text x)%string (e_result e)).
    Proof.
      pose proof (c_result _ _ _ _ _ _ C) as H. unfold x_result. destruct (e_result e) as [x|].
      - destruct H as [(s & j & G & L & K)|(v & G & K)]; [rewrite (get_some _ _ G) by discriminate; rewrite L; cbn [bindR]; rewrite (human_var j x K); reflexivity|].
        rewrite G. destruct v as [|b|z|s|o]; cbn [carries_plain] in K; [subst x; reflexivity|subst x; destruct b; reflexivity|subst x; reflexivity| |].
        + destruct K as (L & ->). rewrite L. reflexivity.
        + destruct K as (A & B & N). unfold plain_result; cbn [str_of type_of]. rewrite A, B. cbn [bindR option_map]. unfold var_text. destruct (String.eqb_spec (v_type x) "str"); [contradiction|reflexivity].
      - apply (dget_None String.eqb String.eqb_spec) in H. rewrite H. reflexivity.
    Qed.
    Lemma h_exception : x_exception l =
      Ok (option_map (fun x => "exception: " ++ fst x ++ "(" ++ match snd x with Some m => quoted m | None => "" end ++ ")")%string (e_exception e)).
    Proof.
      destruct (c_exception _ _ _ _ _ _ C) as (T & M). unfold x_exception. rewrite T. destruct (e_exception e) as [[t m]|]; [|reflexivity].
      cbn [option_map fst snd opt_str]. rewrite (M t m eq_refl). destruct m as [m|]; reflexivity.
    Qed.
    Lemma h_trace : x_traceback loads sp l =
      Ok (option_map (fun t => match t with [] => "no traceback" | _ => "traceback: " ++ join "; " (map (frame_text sp) t) end)%string (e_trace e)).
    Proof.
      pose proof (c_trace _ _ _ _ _ _ C) as H. unfold x_traceback. destruct (e_trace e) as [fs|]; [|rewrite H; reflexivity].
      destruct H as [(s & js & -> & N & L & F)|(-> & [-> | (s & j & -> & L & Z)])]; [|reflexivity|].
      2: { cbn [truth_of bindR]. destruct (String.eqb s ""); [reflexivity|]. cbn [negb loads_val]. rewrite L. cbn [bindR].
           destruct Z as [-> | [-> | [(t & ->) | [-> | [-> | ->]]]]]; reflexivity. }
      cbn [truth_of bindR]. destruct (String.eqb_spec s "") as [|_]; [contradiction|]. cbn [negb loads_val]. rewrite L. cbn [bindR].
      destruct F as [|j f js fs Hj F]; [reflexivity|]. cbn [jtruth negb iterate bindR].
      rewrite (mapR_Forall2 _ (frame_text sp) _ _ _ trace_frame (Forall2_cons _ _ Hj F)). reflexivity.
    Qed.

    (** The standard pieces with their names. *)
    Definition opts (L : list (string * option string)) : list (string * string) :=
      flat_map (fun h => match snd h with Some s => [(fst h, s)] | None => [] end) L.
    Definition later : list (string * option string) :=
      [("message", option_map quoted (e_message e)); ("function", Some (where_piece e));
       ("time_of_work", option_map (fun w => "time of work: " ++ trimmed w ++ " sec.")%string (e_work e));
       ("input_variables", option_map (fun v => "input variables: " ++ vars_text (fst v) (snd v))%string (e_inputs e));
       ("local_variables", option_map (fun v => "local variables: " ++ vars_text (fst v) (snd v))%string (e_locals e));
       ("result", option_map (fun x => "result: " ++ var_text x)%string (e_result e));
       ("exception", option_map (fun x => "exception: " ++ fst x ++ "(" ++ match snd x with Some m => quoted m | None => "" end ++ ")")%string (e_exception e));
       ("traceback", option_map (fun t => match t with [] => "no traceback" | _ => "traceback: " ++ join "; " (map (frame_text sp) t) end)%string (e_trace e))].
    Lemma base_is : base_pieces l (field_handlers loads show sp E l) =
      ("time", time_piece e) :: ("level", level_piece (names_of (levels E)) e) :: ("success", success_piece e) :: ("auto", auto_piece e) :: opts later.
    Proof.
      unfold field_handlers. rewrite h_time, h_level, h_success, h_auto, h_message, h_function, h_work, h_inputs, h_locals, h_result, h_exception, h_trace. reflexivity.
    Qed.
    Lemma opts_keys : forall L n, In n (dkeys (opts L)) -> In n (map fst L).
    Proof.
      induction L as [|[a [s|]] L IH]; intros n H; cbn in H; [destruct H| |right; apply IH; exact H]. destruct H as [<-|H]; [left; reflexivity|right; apply IH; exact H].
    Qed.
    Lemma opts_in : forall L n s, In (n, Some s) L -> In n (dkeys (opts L)).
    Proof.
      induction L as [|[a o] L IH]; intros n s H; [destruct H|]. unfold dkeys; cbn [opts flat_map]. rewrite map_app. apply in_or_app. destruct H as [H|H].
      - injection H as -> ->. left; left; reflexivity.
      - right; apply (IH n s); exact H.
    Qed.
    Lemma opts_vals : forall L, dvals (opts L) = somes (map snd L).
    Proof. induction L as [|[a [s|]] L IH]; [reflexivity| |exact IH]. change (s :: dvals (opts L) = s :: somes (map snd L)). rewrite IH. reflexivity. Qed.

    Lemma standard_hidden : forall n v, In (n, v) l -> standard n -> candidate (base_pieces l (field_handlers loads show sp E l)) (n, v) = false.
    Proof.
      intros n v I S. assert (G : get l n = v) by (unfold get; rewrite (In_dget String.eqb String.eqb_spec l n v (c_keys _ _ _ _ _ _ C) I); reflexivity).
      unfold candidate; cbn [fst snd]. rewrite base_is.
      assert (Shown : forall s, In (n, Some s) later -> dmem String.eqb (("time", time_piece e) :: ("level", level_piece (names_of (levels E)) e) :: ("success", success_piece e) :: ("auto", auto_piece e) :: opts later) n = true).
      { intros s Hs. apply (dmem_true String.eqb String.eqb_spec). do 4 right. apply (opts_in _ _ s); exact Hs. }
      revert S; unfold standard; cbn [In]. intros S.
      destruct S as [<-|[<-|[<-|[<-|[<-|[<-|[<-|[<-|[<-|[<-|[<-|[<-|[<-|[<-|[<-|[<-|[]]]]]]]]]]]]]]]]]; try reflexivity;
        try (cbn [existsb String.eqb forbidden_extra_fields]; rewrite Bool.andb_false_r; reflexivity).
      - pose proof (c_message _ _ _ _ _ _ C) as H. rewrite H in G. destruct (e_message e) as [m|] eqn:Em; [rewrite (Shown (quoted m)); [reflexivity|left; rewrite Em; reflexivity]|].
        subst v. cbn. rewrite Bool.andb_false_r. reflexivity.
      - rewrite (Shown (where_piece e)); [reflexivity|right; left; reflexivity].
      - pose proof (c_work _ _ _ _ _ _ C) as H. destruct (e_work e) as [m|] eqn:Em; [erewrite Shown; [reflexivity|do 2 right; left; rewrite Em; reflexivity]|].
        rewrite H in G; subst v. cbn. rewrite Bool.andb_false_r. reflexivity.
      - pose proof (c_inputs _ _ _ _ _ _ C) as H. destruct (e_inputs e) as [m|] eqn:Em; [erewrite Shown; [reflexivity|do 3 right; left; rewrite Em; reflexivity]|].
        rewrite H in G; subst v. cbn. rewrite Bool.andb_false_r. reflexivity.
      - pose proof (c_locals _ _ _ _ _ _ C) as H. destruct (e_locals e) as [m|] eqn:Em; [erewrite Shown; [reflexivity|do 4 right; left; rewrite Em; reflexivity]|].
        rewrite H in G; subst v. cbn. rewrite Bool.andb_false_r. reflexivity.
      - pose proof (c_result _ _ _ _ _ _ C) as H. destruct (e_result e) as [m|] eqn:Em; [erewrite Shown; [reflexivity|do 5 right; left; rewrite Em; reflexivity]|].
        elim H. apply (in_map fst) in I; exact I.
      - pose proof (c_trace _ _ _ _ _ _ C) as H. destruct (e_trace e) as [m|] eqn:Em; [erewrite Shown; [reflexivity|do 7 right; left; rewrite Em; reflexivity]|].
        rewrite H in G; subst v. cbn. rewrite Bool.andb_false_r. reflexivity.
    Qed.
    Lemma custom_shown : forall n v, In n (dkeys l) -> ~ standard n -> candidate (base_pieces l (field_handlers loads show sp E l)) (n, v) = negb (is_none v).
    Proof.
      intros n v I S. unfold candidate; cbn [fst snd].
      assert (D : dmem String.eqb (base_pieces l (field_handlers loads show sp E l)) n = false).
      { apply (dmem_false String.eqb String.eqb_spec). intros H. apply base_keys_in in H. cbn in H. pose proof (c_no_exception _ _ _ _ _ _ C) as X.
        apply S. unfold standard; cbn [In]. destruct H as [<-|[<-|[<-|[<-|[<-|[<-|[<-|[<-|[<-|[<-|[<-|[<-|[]]]]]]]]]]]]]; tauto. }
      rewrite D. assert (F : existsb (String.eqb n) forbidden_extra_fields = false).
      { apply Bool.not_true_is_false. intros H. apply existsb_exists in H as (x & Hx & Ex). apply String.eqb_eq in Ex; subst x. apply S. unfold standard. cbn [In] in Hx |- *. tauto. }
      rewrite F. reflexivity.
    Qed.
    Lemma extras_are : mapR extra_piece (filter (candidate (base_pieces l (field_handlers loads show sp E l))) l) = Ok (map (fun x => (fst x, extra_text x)) (e_extra e)).
    Proof.
      pose proof (c_extra _ _ _ _ _ _ C) as H.
      assert (G : forall m x, carries_extras m x -> (forall f, In f m -> In f l) ->
        mapR extra_piece (filter (candidate (base_pieces l (field_handlers loads show sp E l))) m) = Ok (map (fun x => (fst x, extra_text x)) x)).
      { intros m x K. induction K as [|n v m x S K IH|n m x S K IH|n s m x S K IH|n v t m x S W K IH]; intros Sub; cbn [filter map]; [reflexivity|..].
        - rewrite standard_hidden; [apply IH; intros f Hf; apply Sub; right; exact Hf|apply Sub; left; reflexivity|exact S].
        - rewrite custom_shown; [cbn; apply IH; intros f Hf; apply Sub; right; exact Hf|apply (in_map fst _ _ (Sub _ (or_introl eq_refl)))|exact S].
        - rewrite custom_shown; [|apply (in_map fst _ _ (Sub _ (or_introl eq_refl)))|exact S]. cbn [is_none negb mapR extra_piece fst snd bindR].
          rewrite IH by (intros f Hf; apply Sub; right; exact Hf). reflexivity.
        - rewrite custom_shown; [|apply (in_map fst _ _ (Sub _ (or_introl eq_refl)))|exact S]. destruct (writes_text _ _ W) as (T & NS & NN).
          replace (is_none v) with false by (destruct v; [elim NN; reflexivity|reflexivity..]). cbn [negb mapR].
          assert (P : extra_piece (n, v) = Ok (n, extra_text (n, XText t))).
          { unfold extra_piece, extra_text; cbn [fst snd]. destruct v; try (rewrite T; reflexivity). elim (NS s); reflexivity. }
          rewrite P. cbn [bindR]. rewrite IH by (intros f Hf; apply Sub; right; exact Hf). reflexivity. }
      apply G; [exact H|auto].
    Qed.

    Lemma extras_keys : forall n, In n (map fst (e_extra e)) -> In n (dkeys l) /\ ~ standard n.
    Proof.
      pose proof (c_extra _ _ _ _ _ _ C) as H. clear C. induction H as [|n v m x S K IH|n m x S K IH|n s m x S K IH|n v t m x S W K IH]; intros q Hq; cbn [map fst dkeys] in *.
      - destruct Hq.
      - destruct (IH _ Hq); split; [right|]; assumption.
      - destruct (IH _ Hq); split; [right|]; assumption.
      - destruct Hq as [<-|Hq]; [split; [left; reflexivity|exact S]|]. destruct (IH _ Hq); split; [right|]; assumption.
      - destruct Hq as [<-|Hq]; [split; [left; reflexivity|exact S]|]. destruct (IH _ Hq); split; [right|]; assumption.
    Qed.

    Lemma formatted_line : forall e0 separator, exists text, formatted loads show sp (norms e0) separator E l = Ok text /\
      line (names_of (levels E)) sp (level_width e0) separator e text.
    Proof.
      intros e0 separator. unfold formatted. rewrite get_dict_spec by apply C. cbv zeta. rewrite extras_are. cbn [bindR].
      eexists; split; [reflexivity|].
      exists (level_piece (names_of (levels E)) e), (centred (level_width e0) (level_piece (names_of (levels E)) e)), (centred 7 (success_piece e)), (centred 6 (auto_piece e)).
      split; [apply level_piece_text|]. do 3 (split; [apply centred_in_column|]).
      assert (K : forall n, In n ["level"; "success"; "auto"] -> ~ In n (dkeys (opts later ++ map (fun x => (fst x, extra_text x)) (e_extra e)))).
      { intros n Hn. unfold dkeys; rewrite map_app. intros H; apply in_app_or in H. destruct H as [H|H].
        - apply opts_keys in H. cbn in H, Hn. intuition (subst; discriminate).
        - rewrite map_map in H. cbn [fst] in H. apply extras_keys in H as (_ & H). apply H. unfold standard. cbn [In] in Hn |- *. tauto. }
      assert (ND : NoDup (dkeys (base_pieces l (field_handlers loads show sp E l) ++ map (fun x => (fst x, extra_text x)) (e_extra e)))).
      { pose proof (mapR_ok_keys _ _ extras_are) as Ek. unfold dkeys in *. rewrite map_app. apply NoDup_app'.
        - apply base_keys_nodup. apply base_names_nodup.
        - rewrite Ek. apply NoDup_map_filter. apply C.
        - intros n Hb Hx. rewrite map_map in Hx. cbn [fst] in Hx. destruct (extras_keys n Hx) as (Hl & Hs). apply base_keys_in in Hb.
          pose proof (c_no_exception _ _ _ _ _ _ C) as X. apply Hs. unfold standard. cbn in Hb. cbn [In].
          destruct Hb as [<-|[<-|[<-|[<-|[<-|[<-|[<-|[<-|[<-|[<-|[<-|[<-|[]]]]]]]]]]]]]; tauto. }
      rewrite width_spec by exact ND. rewrite norms_spec, base_is. clear ND. cbn [app].
      assert (V : dvals (opts later ++ map (fun x => (fst x, extra_text x)) (e_extra e)) = later_pieces sp e).
      { unfold dvals. rewrite map_app, map_map. change (map snd (opts later)) with (dvals (opts later)). rewrite opts_vals. reflexivity. }
      revert K V. generalize (opts later ++ map (fun x => (fst x, extra_text x)) (e_extra e)) as R. intros R K V. rewrite <- V.
      cbn [fold_left fst snd map].
      rewrite (upd_absent "level") by (apply K; cbn; tauto). rewrite (upd_absent "success") by (apply K; cbn; tauto). rewrite (upd_absent "auto") by (apply K; cbn; tauto).
      reflexivity.
    Qed.
  End One.
End Line.
