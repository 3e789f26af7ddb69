(** The Python string operations used by the parsers: split, strip, split on a separator.
    Strings are sequences of bytes (simplified: no Unicode); [sp] is str.isspace of one character. *)
From Verif Require Import Base.
Local Open Scope list_scope.
Local Open Scope string_scope.

Section Text.
  Variable sp : ascii -> bool.

  (** str.lstrip / rstrip / strip without arguments. *)
  Fixpoint lstrip (s : string) : string := match s with "" => "" | String a r => if sp a then lstrip r else s end.
  Fixpoint rstrip (s : string) : string :=
    match s with
    | "" => ""
    | String a r => match rstrip r with
                    | "" => if sp a then "" else String a ""
                    | r' => String a r'
                    end
    end.
  Definition strip (s : string) : string := rstrip (lstrip s).
  Definition blank (s : string) : bool := match strip s with "" => true | _ => false end.

  (** str.split() without arguments. *)
  Fixpoint words (s : string) : list string :=
    match s with
    | "" => []
    | String a r =>
        if sp a then words r
        else match r with
             | "" => [String a ""]
             | String b _ => if sp b then String a "" :: words r
                             else match words r with h :: t => String a h :: t | [] => [String a ""] end
             end
    end.

  (** Text without white space; text of white space only. *)
  Fixpoint dense (s : string) : Prop := match s with "" => True | String a r => sp a = false /\ dense r end.
  Fixpoint spaces (s : string) : Prop := match s with "" => True | String a r => sp a = true /\ spaces r end.

  Lemma spaces_app : forall s t, spaces s -> words (s ++ t) = words t.
  Proof. induction s as [|a s IH]; intros t H; cbn [spaces String.append words] in *; [reflexivity|]; destruct H as [E H]; rewrite E; apply IH; exact H. Qed.

  Lemma words_spaces : forall s, spaces s -> words s = [].
  Proof. induction s as [|a s IH]; intros H; cbn [spaces words] in *; [reflexivity|]; destruct H as [E H]; rewrite E; apply IH; exact H. Qed.

  Lemma words_dense : forall w t, w <> "" -> dense w -> (t = "" \/ exists a r, t = String a r /\ sp a = true) ->
    words (w ++ t) = w :: words t.
  Proof.
    induction w as [|a w IH]; intros t Hne Hd Ht; [contradiction|]; cbn [dense] in Hd; destruct Hd as [Ea Hd].
    cbn [String.append words]; rewrite Ea; destruct w as [|b w].
    - cbn [String.append]; destruct Ht as [->|(c & r & -> & Ec)]; [reflexivity|]; rewrite Ec; reflexivity.
    - change (String b w ++ t) with (String b (w ++ t)); cbn [dense] in Hd; destruct Hd as [Eb Hd].
      rewrite Eb; change (String b (w ++ t)) with (String b w ++ t); rewrite (IH t); [reflexivity|discriminate|split; assumption|exact Ht].
  Qed.

  (** Every text decomposes into its words. *)
  Lemma words_all_dense : forall s w, In w (words s) -> w <> "" /\ dense w.
  Proof.
    induction s as [|a s IH]; intros w H; [destruct H|]; cbn [words] in H.
    destruct (sp a) eqn:Ea; [apply IH; exact H|].
    destruct s as [|b s'].
    - destruct H as [<-|[]]; split; [discriminate|cbn; auto].
    - destruct (sp b) eqn:Eb.
      + destruct H as [<-|H]; [split; [discriminate|cbn; auto]|apply IH; exact H].
      + destruct (words (String b s')) as [|h t] eqn:Ew.
        * destruct H as [<-|[]]; split; [discriminate|cbn; auto].
        * destruct H as [<-|H].
          -- destruct (IH h (or_introl eq_refl)) as [_ Hd]; split; [discriminate|cbn; auto].
          -- apply IH; right; exact H.
  Qed.

  Lemma words_nil : forall s, words s = [] -> spaces s.
  Proof.
    induction s as [|a s IH]; intros H; cbn [words spaces] in *; [exact I|].
    destruct (sp a); [split; [reflexivity|apply IH; exact H]|].
    destruct s as [|b s]; [discriminate|]; destruct (sp b); [discriminate|]; destruct (words (String b s)); discriminate.
  Qed.

  (** The first word: leading spaces, the word, and a rest that starts with a space or is empty. *)
  Lemma words_cons : forall s w ws, words s = w :: ws ->
    exists s0 t, s = s0 ++ (w ++ t) /\ spaces s0 /\ words t = ws /\ (t = "" \/ exists a r, t = String a r /\ sp a = true).
  Proof.
    induction s as [|a s IH]; intros w ws H; [discriminate|]; cbn [words] in H.
    destruct (sp a) eqn:Ea.
    - destruct (IH w ws H) as (s0 & t & -> & S0 & Ht & Hh).
      exists (String a s0), t; split; [reflexivity|]; split; [split; assumption|]; split; assumption.
    - destruct s as [|b s'].
      + injection H as <- <-; exists "", ""; split; [reflexivity|]; split; [exact I|]; split; [reflexivity|left; reflexivity].
      + destruct (sp b) eqn:Eb.
        * injection H as <- Hws; exists "", (String b s'); split; [reflexivity|]; split; [exact I|]; split; [exact Hws|].
          right; eexists _, _; split; [reflexivity|exact Eb].
        * destruct (words (String b s')) as [|h t'] eqn:Ew.
          -- apply words_nil in Ew; destruct Ew as [Ew _]; congruence.
          -- injection H as <- <-; destruct (IH h t' eq_refl) as (s0 & t & E & S0 & Ht & Hh).
             destruct s0 as [|c s0].
             ++ exists "", t; cbn [String.append] in E |- *; rewrite E; split; [reflexivity|]; split; [exact I|]; split; assumption.
             ++ cbn [String.append] in E; injection E as <- _; cbn [spaces] in S0; destruct S0 as [S0 _]; congruence.
  Qed.

  Lemma str_app_nil : forall s : string, s ++ "" = s.
  Proof. induction s as [|a s IH]; [reflexivity|]; cbn; rewrite IH; reflexivity. Qed.
  Lemma str_app_assoc : forall a b c : string, a ++ (b ++ c) = (a ++ b) ++ c.
  Proof. induction a as [|x a IH]; intros b c; [reflexivity|]; cbn; rewrite IH; reflexivity. Qed.

  (** A text has exactly the two words [a] and [b] when it is: spaces, a, at least one space, b, spaces. *)
  Lemma words_two : forall s a b,
    words s = [a; b] <->
    exists s0 s1 s2, s = s0 ++ (a ++ (s1 ++ (b ++ s2))) /\ spaces s0 /\ spaces s1 /\ s1 <> "" /\ spaces s2 /\
                     a <> "" /\ dense a /\ b <> "" /\ dense b.
  Proof.
    intros s a b; split.
    - intros H; pose proof (words_all_dense s) as D; rewrite H in D.
      destruct (D a (or_introl eq_refl)) as [Na Da]; destruct (D b (or_intror (or_introl eq_refl))) as [Nb Db].
      destruct (words_cons _ _ _ H) as (s0 & t & -> & S0 & Ht & Hh).
      destruct (words_cons _ _ _ Ht) as (s1 & t2 & -> & S1 & Ht2 & Hh2).
      apply words_nil in Ht2; exists s0, s1, t2; split; [reflexivity|]; split; [exact S0|]; split; [exact S1|].
      split; [|split; [exact Ht2|auto]].
      intros ->; cbn [String.append] in Hh; destruct b as [|c b]; [contradiction|]; destruct Hh as [Hh|(x & r & Hh & Ex)]; [discriminate|].
      cbn [String.append] in Hh; injection Hh as <- _; cbn [dense] in Db; destruct Db; congruence.
    - intros (s0 & s1 & s2 & -> & S0 & S1 & N1 & S2 & Na & Da & Nb & Db).
      rewrite spaces_app by exact S0; rewrite words_dense; [|exact Na|exact Da|].
      + rewrite spaces_app by exact S1; rewrite words_dense; [|exact Nb|exact Db|].
        * rewrite words_spaces by exact S2; reflexivity.
        * destruct s2 as [|c s2]; [left; reflexivity|right; destruct S2 as [E _]; eauto].
      + destruct s1 as [|c s1]; [contradiction|]; right; destruct S1 as [E _]; eexists _, _; split; [reflexivity|exact E].
  Qed.

  (** str.split(c) for a one-character separator: always at least one piece. *)
  Fixpoint split_char (c : ascii) (s : string) : list string :=
    match s with
    | "" => [""]
    | String a r => if Ascii.eqb a c then "" :: split_char c r
                    else match split_char c r with h :: t => String a h :: t | [] => [String a ""] end
    end.

  (** str.split('>>'): non-overlapping, from the left. *)
  Fixpoint split_gg (s : string) : list string :=
    match s with
    | "" => [""]
    | String ">" (String ">" r) => "" :: split_gg r
    | String a r => match split_gg r with h :: t => String a h :: t | [] => [String a ""] end
    end.

  (** str.replace(a, b) for single characters. *)
  Fixpoint replace_char (a b : ascii) (s : string) : string :=
    match s with "" => "" | String x r => String (if Ascii.eqb x a then b else x) (replace_char a b r) end.

  Fixpoint join (sep : string) (l : list string) : string :=
    match l with [] => "" | [x] => x | x :: r => x ++ (sep ++ join sep r) end.

  Lemma split_char_nonempty : forall c s, split_char c s <> [].
  Proof. intros c [|a r]; cbn; [discriminate|]; destruct (Ascii.eqb a c); [discriminate|]; destruct (split_char c r); discriminate. Qed.

  (** split is the inverse of join. *)
  Fixpoint lacks (c : ascii) (s : string) : Prop := match s with "" => True | String a r => a <> c /\ lacks c r end.
  Lemma split_join : forall c s, join (String c "") (split_char c s) = s /\ Forall (lacks c) (split_char c s).
  Proof.
    intros c; induction s as [|a s [IH1 IH2]]; cbn [split_char]; [split; [reflexivity|repeat constructor]|].
    destruct (Ascii.eqb_spec a c) as [Eq|Hne].
    - subst a; split; [|constructor; [exact I|exact IH2]].
      destruct (split_char c s) as [|h t] eqn:E; [apply split_char_nonempty in E; contradiction|].
      change (join (String c "") ("" :: h :: t)) with (String c (join (String c "") (h :: t))); rewrite IH1; reflexivity.
    - destruct (split_char c s) as [|h t] eqn:E; [apply split_char_nonempty in E; contradiction|].
      inversion IH2 as [|x l H1 H2]; subst; split; [|constructor; [split; assumption|exact H2]].
      destruct t as [|h2 t]; reflexivity.
  Qed.
  Lemma split_unique : forall c l, l <> [] -> Forall (lacks c) l -> split_char c (join (String c "") l) = l.
  Proof.
    intros c l; induction l as [|x l IH]; intros N F; [contradiction|]; inversion F as [|y l' Hx Fl]; subst.
    destruct l as [|y l].
    - cbn [join]; clear -Hx; induction x as [|a x IH]; [reflexivity|]; cbn [split_char]; destruct Hx as [Na Hx].
      destruct (Ascii.eqb_spec a c); [contradiction|]; rewrite IH by exact Hx; reflexivity.
    - assert (split_char c (join (String c "") (y :: l)) = y :: l) as IH' by (apply IH; [discriminate|exact Fl]).
      change (join (String c "") (x :: y :: l)) with (x ++ (String c "" ++ join (String c "") (y :: l))).
      revert IH'; generalize (join (String c "") (y :: l)) as s; intros s IH'; clear IH N F Fl.
      induction x as [|a x IHx]; cbn [String.append split_char].
      + rewrite Ascii.eqb_refl, IH'; reflexivity.
      + destruct Hx as [Na Hx]; destruct (Ascii.eqb_spec a c); [contradiction|]; cbn [String.append] in IHx; rewrite IHx by exact Hx; reflexivity.
  Qed.
End Text.
