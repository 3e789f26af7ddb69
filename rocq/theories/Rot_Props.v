(** Properties C40 (token patterns), C41 (rotation rules), C43 (lock specifications). *)
From Verif Require Import Base Text Rot_Model Rot_Spec Rot_Proofs.
From Coq Require Import ZArith Permutation ListDec.
Local Open Scope list_scope.
Local Open Scope string_scope.

(** *** C40 *)
(** A pattern is read as the grammar says; everything outside the grammar is a ValueError, except that a bracket
    never closed is silently dropped together with its letter. *)
Theorem C40_parse : forall s,
  (forall us, parse_regexp s = Ok us <-> parses s us \/ parses_open s us) /\
  (forall e, parse_regexp s = Err e -> e = EValueError).
Proof.
  intros s; split; [intros us; split|].
  - apply (parse_complete (String.length s)); apply le_n.
  - intros [H|H]; [apply parses_sound|apply opens_sound]; exact H.
  - intros e; apply parse_error.
Qed.

(** On at least one token, a pattern with at least one element answers whether the tokens match it as a glob. *)
Theorem C40_match : forall s us ts, parse_regexp s = Ok us -> us <> [] -> ts <> [] ->
  exists b, check_regexp ts s = Ok b /\ (b = true <-> gmatch us ts).
Proof.
  intros s us ts P Hu Ht; destruct s as [|c s]; [injection P as <-; contradiction|].
  unfold check_regexp; rewrite P.
  destruct (rloop_spec (reduce us)) with (ts := ts) as (b & E & Hb); [rewrite reduce_nil; exact Hu|apply reduce_ns|exact Ht|].
  exists b; split; [exact E|]; rewrite Hb; apply reduce_gmatch.
Qed.

(** The cases the previous theorem leaves out.  The empty pattern matches everything; on no tokens at all a pattern of
    one element, or starting with '*', is answered like a glob, and any other pattern is an IndexError; a pattern
    whose only element was dropped is an IndexError. *)
Theorem C40_edge_cases : forall s us,
  (forall ts, check_regexp ts "" = Ok true) /\
  (parse_regexp s = Ok us -> s <> "" ->
    (us = [] -> forall ts, check_regexp ts s = Err EIndexError) /\
    (forall u, reduce us = [u] -> check_regexp [] s = Ok (is_star u)) /\
    (forall u v r, reduce us = u :: v :: r -> check_regexp [] s = if is_star u then Ok false else Err EIndexError)).
Proof.
  intros s us; split; [reflexivity|]; intros P Hs.
  unfold check_regexp; destruct s as [|c s]; [contradiction|]; rewrite P.
  split; [intros -> ts; reflexivity|]; split; [intros u ->; reflexivity|].
  intros u v r ->; cbn [rloop]; destruct (is_star u); reflexivity.
Qed.

(** *** C41 *)
Section Rules.
  Variable sp : ascii -> bool.
  Variable int_of : string -> option Z.
  (** int() refuses the names of units. *)
  Hypothesis int_unit : forall b p, In (b, p) unit_power -> int_of b = None.

  Lemma power_in : forall w p, dget String.eqb unit_power w = Some p <-> In (w, p) unit_power.
  Proof.
    intros w p; split; [apply (dget_In String.eqb String.eqb_spec)|].
    apply (In_dget String.eqb String.eqb_spec).
    cbv [dkeys map fst unit_power]; repeat (constructor; [cbv [In]; intuition discriminate|]); constructor.
  Qed.

  Lemma size_spec : forall w, (if size_its_me w then size_parse w else Err EValueError) =
    match dget String.eqb unit_power w with Some p => Ok (Some (1024 ^ Z.of_nat p)%Z) | None => Err EValueError end.
  Proof.
    intros w; destruct (dget String.eqb unit_power w) as [p|] eqn:E.
    - apply power_in in E; unfold unit_power in E; cbn [In] in E.
      repeat (destruct E as [E|E]; [injection E as <- <-; reflexivity|]); destruct E.
    - assert (size_its_me w = false) as ->; [|reflexivity].
      apply (dget_None String.eqb String.eqb_spec) in E.
      unfold size_its_me; destruct (existsb (String.eqb w) size_keys) eqn:X; [|reflexivity].
      exfalso; apply existsb_exists in X; destruct X as (x & Hx & Ex); apply String.eqb_eq in Ex; subst x; apply E.
      cbv in Hx; cbv [dkeys unit_power map fst In]; tauto.
  Qed.

  Lemma tokenize1_spec : forall w, cont (tokenize1 int_of w) =
    match dget String.eqb unit_power w with
    | Some p => CSize (1024 ^ Z.of_nat p)
    | None => match int_of w with Some n => CNum n | None => CDot end
    end.
  Proof.
    intros w; unfold tokenize1; rewrite size_spec; destruct (dget String.eqb unit_power w); [reflexivity|].
    destruct (int_of w); reflexivity.
  Qed.

  Definition is_num (t : token) : bool := match cont t with CNum _ => true | _ => false end.
  Definition is_size (t : token) : bool := match cont t with CSize _ => true | _ => false end.
  Lemma check_ns : forall ts, check_regexp ts "ns" =
    match ts with
    | [] => Err EIndexError
    | [a; b] => Ok (is_num a && is_size b)
    | _ => Ok false
    end.
  Proof.
    assert (forall t, cmp (mkUnit "n" None) t = is_num t) as N.
    { intros t; unfold cmp, is_num, letter_of; cbn; destruct (cont t); reflexivity. }
    assert (forall t, cmp (mkUnit "s" None) t = is_size t) as S.
    { intros t; unfold cmp, is_size, letter_of; cbn; destruct (cont t); reflexivity. }
    intros ts; change (check_regexp ts "ns") with (rloop [mkUnit "n" None; mkUnit "s" None] ts).
    cbn [rloop]; change (is_star (mkUnit "n" None)) with false; change (is_star (mkUnit "s" None)) with false; cbv iota.
    destruct ts as [|a [|b [|c ts]]]; [reflexivity| | |]; rewrite N.
    - destruct (is_num a); reflexivity.
    - rewrite S; destruct (is_num a), (is_size b); reflexivity.
    - destruct (is_num a); reflexivity.
  Qed.

  Lemma choose_spec : forall src,
    choose sp int_of src =
      match words sp src with
      | [] => Err EIndexError
      | [a; b] => match dget String.eqb unit_power a, int_of a, dget String.eqb unit_power b with
                  | None, Some n, Some p => if (0 <? n)%Z then Ok (n * 1024 ^ Z.of_nat p)%Z else Err EValueError
                  | _, _, _ => Err EValueError
                  end
      | _ => Err EValueError
      end.
  Proof.
    intros src; unfold choose, prove_source, tokenize; rewrite check_ns.
    destruct (words sp src) as [|a [|b [|c ws]]]; cbn [map]; try reflexivity.
    unfold is_num, is_size, size_limit; cbn [first_num first_size]; rewrite !tokenize1_spec.
    destruct (dget String.eqb unit_power a) as [p|]; [reflexivity|].
    destruct (int_of a) as [n|]; [|reflexivity].
    destruct (dget String.eqb unit_power b) as [p|]; [cbn [andb]|destruct (int_of b); reflexivity].
    rewrite Z.leb_antisym, negb_involutive; destruct (0 <? n)%Z; reflexivity.
  Qed.

  (** A rule text is accepted exactly if it is a positive integer and a unit, and then its limit is the number
      times the unit; every other (not blank) text is a ValueError. *)
  Theorem C41_rule : forall src, not_blank sp src = true ->
    (forall lim, choose sp int_of src = Ok lim <-> denotes sp int_of src lim) /\
    ((forall lim, ~ denotes sp int_of src lim) -> choose sp int_of src = Err EValueError).
  Proof.
    intros src B; rewrite choose_spec; unfold denotes, not_blank in *.
    assert (forall lim, match words sp src with
      | [] => Err EIndexError
      | [a; b] => match dget String.eqb unit_power a, int_of a, dget String.eqb unit_power b with
                  | None, Some n, Some p => if (0 <? n)%Z then Ok (n * 1024 ^ Z.of_nat p)%Z else Err EValueError
                  | _, _, _ => Err EValueError
                  end
      | _ => Err EValueError
      end = Ok lim <-> exists a b n p, words sp src = [a; b] /\ int_of a = Some n /\ (0 < n)%Z /\ In (b, p) unit_power /\ lim = (n * 1024 ^ Z.of_nat p)%Z) as H.
    { intros lim; split.
      - destruct (words sp src) as [|a [|b [|c ws]]]; try discriminate; intros E.
        destruct (dget String.eqb unit_power a); [discriminate|]; destruct (int_of a) as [n|] eqn:En; [|discriminate].
        destruct (dget String.eqb unit_power b) as [p|] eqn:Ep; [|discriminate]; destruct (0 <? n)%Z eqn:Ez; [|discriminate].
        injection E as <-; exists a, b, n, p; split; [reflexivity|]; split; [exact En|]; split; [apply Z.ltb_lt; exact Ez|].
        split; [apply power_in; exact Ep|reflexivity].
      - intros (a & b & n & p & -> & En & Hn & Hp & ->).
        destruct (dget String.eqb unit_power a) as [q|] eqn:Ea; [apply power_in, int_unit in Ea; congruence|].
        rewrite En; apply power_in in Hp; rewrite Hp; apply Z.ltb_lt in Hn; rewrite Hn; reflexivity. }
    split; [exact H|]; intros N.
    destruct (words sp src) as [|a [|b [|c ws]]]; try reflexivity; [discriminate|].
    destruct (dget String.eqb unit_power a); [reflexivity|]; destruct (int_of a) as [n|]; [|reflexivity].
    destruct (dget String.eqb unit_power b) as [p|]; [|reflexivity].
    destruct (0 <? n)%Z; [|reflexivity].
    exfalso; apply (N (n * 1024 ^ Z.of_nat p)%Z), H; reflexivity.
  Qed.

  (** In characters: spaces, the number, spaces, the unit, spaces. *)
  Corollary C41_rule_text : forall s0 a s1 b s2 n p,
    spaces sp s0 -> spaces sp s1 -> s1 <> "" -> spaces sp s2 -> a <> "" -> dense sp a -> b <> "" -> dense sp b ->
    int_of a = Some n -> (0 < n)%Z -> In (b, p) unit_power ->
    choose sp int_of (s0 ++ (a ++ (s1 ++ (b ++ s2)))) = Ok (n * 1024 ^ Z.of_nat p)%Z.
  Proof.
    intros s0 a s1 b s2 n p S0 S1 N1 S2 Na Da Nb Db En Hn Hp.
    assert (words sp (s0 ++ (a ++ (s1 ++ (b ++ s2)))) = [a; b]) as W.
    { apply words_two; exists s0, s1, s2; repeat (split; [assumption || reflexivity|]); assumption. }
    apply C41_rule; [unfold not_blank; rewrite W; reflexivity|].
    exists a, b, n, p; auto.
  Qed.

  (** *** The whole rotation command *)
  Lemma words_lstrip : forall s, words sp (lstrip sp s) = words sp s.
  Proof. induction s as [|a s IH]; [reflexivity|]; cbn [lstrip]; destruct (sp a) eqn:E; [|reflexivity]; cbn [words]; rewrite E; exact IH. Qed.
  Lemma rstrip_first : forall c r b r', rstrip sp (String c r) = String b r' -> b = c.
  Proof.
    intros c r b r' H; cbn [rstrip] in H; destruct (rstrip sp r); [destruct (sp c); [discriminate|]|]; injection H as H _; congruence.
  Qed.
  Lemma words_rstrip : forall s, words sp (rstrip sp s) = words sp s.
  Proof.
    induction s as [|a s IH]; [reflexivity|]; cbn [rstrip]; destruct (rstrip sp s) as [|b r'] eqn:E.
    - cbn [words] in IH; destruct (sp a) eqn:Ea; cbn [words]; rewrite Ea; [exact IH|].
      destruct s as [|c s]; [reflexivity|]; pose proof (words_nil sp (String c s) (eq_sym IH)) as [Ec _]; rewrite Ec, <- IH; reflexivity.
    - cbn [words] in IH |- *; destruct (sp a); [exact IH|].
      destruct s as [|c s]; [discriminate|]; apply rstrip_first in E; subst c.
      destruct (sp b) eqn:Eb; [f_equal; exact IH|]; rewrite IH; reflexivity.
  Qed.
  Lemma words_strip : forall s, words sp (strip sp s) = words sp s.
  Proof. intros s; unfold strip; rewrite words_rstrip; apply words_lstrip. Qed.
  Lemma strip_blank : forall s, match strip sp s with "" => false | _ => true end = not_blank sp s.
  Proof.
    intros s; unfold not_blank; destruct (strip sp s) as [|a r] eqn:E.
    - rewrite <- words_strip, E; reflexivity.
    - destruct (words sp s) eqn:W; [|reflexivity]; exfalso; rewrite <- words_strip in W; apply words_nil in W.
      (* strip leaves no leading space *)
      assert (forall s a r, strip sp s = String a r -> sp a = false) as L.
      { clear; intros s a r H; unfold strip in H.
        assert (match lstrip sp s with "" => True | String b _ => sp b = false end) as F.
        { clear H; induction s as [|b s IH]; [exact I|]; cbn [lstrip]; destruct (sp b) eqn:Eb; [exact IH|exact Eb]. }
        destruct (lstrip sp s) as [|b s']; [discriminate|]; apply rstrip_first in H; subst; exact F. }
      rewrite E in W; destruct W as [W _]; apply L in E; congruence.
  Qed.

  Lemma pieces_split : forall c s, split_char c s = pieces_at (fun x => Ascii.eqb x c) s.
  Proof. intros c; induction s as [|a s IH]; [reflexivity|]; cbn [split_char pieces_at]; rewrite IH; reflexivity. Qed.
  Lemma pieces_two : forall s, split_char "," (replace_char ";" "," s) = pieces_at (fun c => Ascii.eqb c "," || Ascii.eqb c ";") s.
  Proof.
    induction s as [|a s IH]; [reflexivity|]; cbn [replace_char split_char pieces_at].
    destruct (Ascii.eqb_spec a ";") as [->|N]; [cbn; rewrite IH; reflexivity|].
    rewrite orb_false_r, IH; reflexivity.
  Qed.
  Lemma strip_pieces : forall l, filter (fun x => match x with "" => false | _ => true end) (map (strip sp) l) = map (strip sp) (filter (not_blank sp) l).
  Proof.
    induction l as [|x l IH]; [reflexivity|]; cbn [map filter]; rewrite strip_blank; destruct (not_blank sp x); cbn [map]; rewrite IH; reflexivity.
  Qed.
  Lemma choose_strip : forall x, choose sp int_of (strip sp x) = choose sp int_of x.
  Proof. intros x; rewrite !choose_spec, words_strip; reflexivity. Qed.

  Lemma choose_all_spec : forall l, Forall (fun x => not_blank sp x = true) l ->
    (forall zs, choose_all sp int_of (map (strip sp) l) = Ok zs <-> Forall2 (denotes sp int_of) l zs) /\
    ((forall zs, ~ Forall2 (denotes sp int_of) l zs) -> choose_all sp int_of (map (strip sp) l) = Err EValueError).
  Proof.
    induction l as [|x l IH]; intros F; cbn [map choose_all].
    - split; [intros zs; split; [intros E; injection E as <-; constructor|intros H; inversion H; reflexivity]|].
      intros N; exfalso; apply (N []); constructor.
    - inversion F as [|y l' Bx Fl]; subst; destruct (IH Fl) as [A B]; destruct (C41_rule x Bx) as [C D]; rewrite choose_strip; split.
      + intros zs; split; [intros E|intros H].
        * destruct (choose sp int_of x) as [z|]; [|discriminate]; destruct (choose_all sp int_of (map (strip sp) l)) as [zs'|]; [|discriminate].
          injection E as <-; constructor; [apply C; reflexivity|apply A; reflexivity].
        * inversion H as [|x' z l' zs' Hz Hzs]; subst; apply C in Hz; apply A in Hzs; rewrite Hz, Hzs; reflexivity.
      + intros N; destruct (choose sp int_of x) as [z|e] eqn:Ez.
        * destruct (choose_all sp int_of (map (strip sp) l)) as [zs|e] eqn:Es.
          -- exfalso; apply (N (z :: zs)); constructor; [apply C; reflexivity|apply A; reflexivity].
          -- apply B; intros zs H; apply A in H; discriminate.
        * assert (Err e = @Err Z EValueError) as X by (apply D; intros z H; apply C in H; discriminate); injection X as ->; reflexivity.
  Qed.

  (** A rotation command without '>>' is a list of rules separated by commas or semicolons; all must be well formed. *)
  Theorem C41_rules : forall s,
    (forall zs, extract_rules sp int_of s = Ok zs <-> Forall2 (denotes sp int_of) (rule_texts sp s) zs) /\
    ((forall zs, ~ Forall2 (denotes sp int_of) (rule_texts sp s) zs) -> extract_rules sp int_of s = Err EValueError).
  Proof.
    intros s; unfold extract_rules, split_source; rewrite strip_pieces, pieces_two; apply choose_all_spec.
    apply Forall_forall; intros x Hx; apply filter_In in Hx; apply Hx.
  Qed.

  (** Rotation happens exactly when the size reaches the limit of some rule. *)
  Theorem C41_trigger : forall s zs size, extract_rules sp int_of s = Ok zs ->
    (must_rotate zs size = true <-> exists text lim, In text (rule_texts sp s) /\ denotes sp int_of text lim /\ (lim <= size)%Z).
  Proof.
    intros s zs size E; apply C41_rules in E; unfold must_rotate; rewrite existsb_exists; split.
    - intros (l & Hl & Hs); apply Z.leb_le in Hs.
      assert (exists text, In text (rule_texts sp s) /\ denotes sp int_of text l) as (t & Ht & Hd).
      { revert Hl; induction E as [|x z l1 l2 Hd E IH]; intros Hl; [destruct Hl|].
        destruct Hl as [<-|Hl]; [exists x; split; [left; reflexivity|exact Hd]|].
        destruct (IH Hl) as (t & Ht & Hd2); exists t; split; [right; exact Ht|exact Hd2]. }
      exists t, l; auto.
    - intros (t & lim & Ht & Hd & Hs).
      assert (exists z, In z zs /\ denotes sp int_of t z) as (z & Hz & Hd2).
      { revert Ht; induction E as [|x z l1 l2 Hd2 E IH]; intros Ht; [destruct Ht|].
        destruct Ht as [<-|Ht]; [exists z; split; [left; reflexivity|exact Hd2]|].
        destruct (IH Ht) as (y & Hy & Hd3); exists y; split; [right; exact Hy|exact Hd3]. }
      exists z; split; [exact Hz|]; apply Z.leb_le.
      assert (z = lim) as ->; [|exact Hs].
      destruct Hd as (a & b & n & p & W & En & Hn & Hp & ->); destruct Hd2 as (a' & b' & n' & p' & W' & En' & Hn' & Hp' & ->).
      rewrite W in W'; injection W' as <- <-; rewrite En in En'; injection En' as <-.
      apply power_in in Hp; apply power_in in Hp'; rewrite Hp in Hp'; injection Hp' as <-; reflexivity.
  Qed.

  Lemma gg_none : forall a, lacks ">" a -> split_gg a = [a].
  Proof.
    induction a as [|c a IH]; intros H; [reflexivity|]; destruct H as [Hc H].
    assert (split_gg (String c a) = match split_gg a with h :: t => String c h :: t | [] => [String c ""] end) as ->.
    { cbn [split_gg]; destruct c as [[|] [|] [|] [|] [|] [|] [|] [|]]; try reflexivity; contradiction. }
    rewrite IH by exact H; reflexivity.
  Qed.
  Lemma gg_app : forall a r, lacks ">" a -> split_gg (a ++ (">>" ++ r)) = a :: split_gg r.
  Proof.
    induction a as [|c a IH]; intros r H; [reflexivity|]; destruct H as [Hc H].
    assert (forall s, split_gg (String c s) = match split_gg s with h :: t => String c h :: t | [] => [String c ""] end) as E.
    { intros s; cbn [split_gg]; destruct c as [[|] [|] [|] [|] [|] [|] [|] [|]]; try reflexivity; contradiction. }
    cbn [String.append] in IH |- *; rewrite E, IH by exact H; reflexivity.
  Qed.

  (** The command with a directory: rules on the left of '>>' (none if nothing is there), directory on the right
      ("logs" if nothing is there); more than one '>>' is a ValueError; without a file any non-empty command is. *)
  Theorem C41_command : forall a b c, lacks ">" a -> lacks ">" b -> lacks ">" c ->
    rotator_init sp int_of None true = Ok ([], "logs") /\
    rotator_init sp int_of (Some a) true =
      match extract_rules sp int_of a with Ok zs => Ok (zs, "logs") | Err e => Err e end /\
    rotator_init sp int_of (Some (a ++ (">>" ++ b))) true =
      match extract_rules sp int_of a with
      | Ok zs => Ok (zs, match b with "" => "logs" | _ => strip sp b end)
      | Err e => Err e
      end /\
    rotator_init sp int_of (Some (a ++ (">>" ++ (b ++ (">>" ++ c))))) true = Err EValueError /\
    (forall s, s <> "" -> rotator_init sp int_of (Some s) false = Err EValueError).
  Proof.
    intros a b c La Lb Lc; split; [reflexivity|].
    assert (forall s, rotator_init sp int_of (Some s) true =
              match rules_string (Some s) with
              | Err e => Err e
              | Ok rs => match where_to_rotate sp (Some s) with
                         | Err e => Err e
                         | Ok dir => match rs with None => Ok ([], dir) | Some r => match extract_rules sp int_of r with Err e => Err e | Ok zs => Ok (zs, dir) end end
                         end
              end) as R by (intros [|x s]; reflexivity).
    assert (extract_rules sp int_of "" = Ok []) as E0 by reflexivity.
    rewrite !R; unfold rules_string, where_to_rotate.
    rewrite !gg_app by assumption; rewrite !gg_none by assumption.
    split; [destruct (extract_rules sp int_of a); reflexivity|].
    split; [destruct a as [|x a]; [rewrite E0; destruct b; reflexivity|]; destruct b; destruct (extract_rules sp int_of (String x a)); reflexivity|].
    split; [reflexivity|]; intros [|x s] H; [contradiction|reflexivity].
  Qed.

  (** *** C43 *)
  Lemma lock_loop_spec : forall l seen, NoDup seen ->
    lock_loop l seen = (if forallb (fun x => String.eqb x "file" || String.eqb x "thread") l then
                          if (if NoDup_dec string_dec (seen ++ l)%list then true else false) then Ok (seen ++ l)%list else Err EValueError
                        else Err EValueError).
  Proof.
    induction l as [|x l IH]; intros seen N; cbn [lock_loop forallb].
    - rewrite app_nil_r; destruct (NoDup_dec string_dec seen); [reflexivity|contradiction].
    - destruct (String.eqb x "file" || String.eqb x "thread"); cbn [negb andb]; [|reflexivity].
      destruct (existsb (String.eqb x) seen) eqn:X.
      + apply existsb_exists in X; destruct X as (y & Hy & E); apply String.eqb_eq in E; subst y.
        destruct (NoDup_dec string_dec (seen ++ x :: l)%list) as [D|D].
        * exfalso; apply NoDup_remove_2 in D; apply D; rewrite in_app_iff; auto.
        * destruct (forallb _ l); reflexivity.
      + assert (~ In x seen) as Hx.
        { intros Hx; assert (existsb (String.eqb x) seen = true) by (apply existsb_exists; exists x; split; [exact Hx|apply String.eqb_refl]); congruence. }
        rewrite IH.
        * rewrite <- app_assoc; reflexivity.
        * apply NoDup_Add with (a := x) (l := seen); [|split; assumption].
          rewrite <- (app_nil_r seen) at 1; apply Add_app.
  Qed.

  Lemma sort_two : forall l, Forall (fun x => x = "file" \/ x = "thread") l -> NoDup l ->
    In (sort l) [[]; ["file"]; ["thread"]; ["file"; "thread"]] /\ forall x, In x (sort l) <-> In x l.
  Proof.
    intros l F N; destruct l as [|a [|b [|c l]]].
    - cbn; split; [auto|tauto].
    - inversion F as [|x l [->| ->] _]; subst; cbn; split; auto; tauto.
    - inversion F as [|x l Ha F']; subst; inversion F' as [|x l Hb _]; subst; inversion N as [|x l Hn _]; subst.
      destruct Ha as [->| ->], Hb as [->| ->]; try (exfalso; apply Hn; left; reflexivity); cbn; (split; [auto|]; intros x; tauto).
    - exfalso; inversion F as [|x l1 Ha F1]; subst; inversion F1 as [|x l1 Hb F2]; subst; inversion F2 as [|x l1 Hc _]; subst.
      inversion N as [|x l1 N1 N2]; subst; inversion N2 as [|x l1 N3 _]; subst; cbn in N1, N3.
      destruct Ha as [->| ->], Hb as [->| ->], Hc as [->| ->]; tauto.
  Qed.

  (** A text is accepted exactly when it is not blank and the names between the plus signs are "file" and "thread", each
      at most once; the result is the sorted list of them.  Everything else is a ValueError. *)
  Theorem C43_parse : forall s,
    let names := lock_names sp s in
    let good := not_blank sp s = true /\ Forall (fun x => x = "file" \/ x = "thread") names /\ NoDup names in
    (good -> exists l, get_lock_types sp (LStr s) = Ok l /\ In l [[]; ["file"]; ["thread"]; ["file"; "thread"]] /\
                       forall x, In x l <-> In x names) /\
    (~ good -> get_lock_types sp (LStr s) = Err EValueError).
  Proof.
    intros s names good.
    assert (get_lock_types sp (LStr s) = if negb (not_blank sp s) then Err EValueError
              else match lock_loop names [] with Err e => Err e | Ok l => Ok (sort l) end) as ->.
    { unfold get_lock_types, blank; rewrite strip_pieces, pieces_split; fold (lock_names sp s).
      rewrite <- strip_blank; destruct (strip sp s); reflexivity. }
    rewrite lock_loop_spec by constructor; cbn [app].
    assert (forallb (fun x => String.eqb x "file" || String.eqb x "thread") names = true <-> Forall (fun x => x = "file" \/ x = "thread") names) as Fb.
    { rewrite forallb_forall, Forall_forall; split; intros H x Hx; specialize (H x Hx); rewrite orb_true_iff, !String.eqb_eq in *; exact H. }
    split.
    - intros (B & F & N); rewrite B; cbn [negb]; apply Fb in F; rewrite F.
      destruct (NoDup_dec string_dec names) as [D|D]; [|contradiction].
      apply Fb in F; destruct (sort_two names F D) as [H1 H2]; exists (sort names); split; [reflexivity|]; split; assumption.
    - intros G; destruct (not_blank sp s) eqn:B; [cbn [negb]|reflexivity].
      destruct (forallb _ names) eqn:F; [|reflexivity]; assert (Forall (fun x => x = "file" \/ x = "thread") names) as F2 by (apply Fb; reflexivity).
      destruct (NoDup_dec string_dec names) as [D|D]; [exfalso; apply G; split; [reflexivity|split; assumption]|reflexivity].
  Qed.

  Theorem C43_none_and_other : get_lock_types sp LNone = Ok [] /\ get_lock_types sp LOther = Err EValueError.
  Proof. split; reflexivity. Qed.

  (** Order and repetition of separators and spaces do not matter: only the names do. *)
  Theorem C43_only_names_matter : forall s t, not_blank sp s = true -> not_blank sp t = true ->
    Permutation (lock_names sp s) (lock_names sp t) -> get_lock_types sp (LStr s) = get_lock_types sp (LStr t).
  Proof.
    intros s t Bs Bt P; destruct (C43_parse s) as [Gs Ns]; destruct (C43_parse t) as [Gt Nt].
    assert (forall a b, Permutation a b -> (Forall (fun x => x = "file" \/ x = "thread") a /\ NoDup a) -> (Forall (fun x => x = "file" \/ x = "thread") b /\ NoDup b)) as M.
    { intros a b Pab [F N]; split; [rewrite Forall_forall in *; intros x Hx; apply F; apply (Permutation_in x (Permutation_sym Pab) Hx)|apply (Permutation_NoDup Pab N)]. }
    destruct (Forall_dec (fun x => x = "file" \/ x = "thread")) with (l := lock_names sp s) as [F|F];
      [intros x; destruct (string_dec x "file") as [->|]; [left; auto|]; destruct (string_dec x "thread") as [->|]; [left; auto|right; intros [E|E]; contradiction]| |].
    - destruct (NoDup_dec string_dec (lock_names sp s)) as [N|N].
      + destruct Gs as (ls & -> & Is & Hs); [auto|].
        destruct Gt as (lt & -> & It & Ht); [destruct (M _ _ P (conj F N)); auto|].
        f_equal; assert (forall x, In x ls <-> In x lt) as Eq.
        { intros x; rewrite Hs, Ht; split; apply Permutation_in; [exact P|apply Permutation_sym; exact P]. }
        clear -Is It Eq; pose proof (Eq "file") as E1; pose proof (Eq "thread") as E2; clear Eq; cbn in Is, It.
        repeat (destruct Is as [<-|Is]; [|]); try destruct Is; repeat (destruct It as [<-|It]; [|]); try destruct It; try reflexivity;
          exfalso; cbn in E1, E2; intuition discriminate.
      + rewrite Ns by tauto; rewrite Nt; [reflexivity|]; intros (_ & F' & N'); destruct (M _ _ (Permutation_sym P) (conj F' N')); contradiction.
    - rewrite Ns by tauto; rewrite Nt; [reflexivity|]; intros (_ & F' & N'); destruct (M _ _ (Permutation_sym P) (conj F' N')); contradiction.
  Qed.
End Rules.

(** *** Concrete cases *)
Definition ws (c : ascii) : bool := Ascii.eqb c " ".
Definition ints (s : string) : option Z :=
  if String.eqb s "5" then Some 5%Z else if String.eqb s "-3" then Some (-3)%Z else if String.eqb s "10" then Some 10%Z else None.

Example C40_case :
  parse_regexp "n.[kek]**s" = Ok [mkUnit "n" None; mkUnit "." (Some "kek"); mkUnit "*" None; mkUnit "*" None; mkUnit "s" None] /\
  check_regexp (tokenize ws ints "5 kek 10 lol mb") "n.[kek]**s" = Ok true /\
  check_regexp (tokenize ws ints "5 kek mb") "n.[kek]**s" = Ok true /\
  check_regexp (tokenize ws ints "5 keks mb") "n.[kek]**s" = Ok false /\
  parse_regexp "n]" = Err EValueError /\ parse_regexp "*[a]" = Err EValueError /\ parse_regexp "[a]" = Err EValueError /\
  parse_regexp "d[a][b]" = Ok [mkUnit "d" (Some "a"); mkUnit "d" (Some "b")] /\
  parse_regexp "nd[a" = Ok [mkUnit "n" None].
Proof. vm_compute; repeat split. Qed.

(** An unfinished bracket is not reported: the pattern silently loses its last element. *)
Theorem C40_unclosed_bracket_refuted : exists s us, parses_open s us /\ parse_regexp s = Ok us /\ forall v, ~ parses s v.
Proof.
  exists "nd[a", [mkUnit "n" None].
  assert (parses_open "nd[a" [mkUnit "n" None]) as H.
  { apply o_plain; [split; discriminate|cbn; discriminate|].
    apply (o_here "d" [] "a"); [split; discriminate|discriminate|constructor|repeat split; discriminate]. }
  split; [exact H|]; split; [reflexivity|].
  assert (forall vs r, Forall no_brackets vs -> brackets vs ++ r = "[a" -> vs = []) as B.
  { intros [|w vs] r F E; [reflexivity|]; exfalso; cbn in E; injection E as E.
    inversion F as [|x l Hw _]; subst; destruct w as [|w1 [|w2 w]]; cbn in E; discriminate. }
  assert (forall v, ~ parses "d[a" v) as D.
  { intros v P; inversion P; subst; [match goal with H : ~ opens _ |- _ => apply H; reflexivity end|].
    match goal with H : brackets ?vs ++ ?r = _, F : Forall _ ?vs |- _ => apply B in H; [contradiction|exact F] end. }
  intros v P; inversion P; subst; [eapply D; eassumption|].
  match goal with H : brackets ?vs ++ ?r = _ |- _ => destruct vs; [contradiction|discriminate] end.
Qed.

(** Matching no tokens at all can be an IndexError instead of False. *)
Theorem C40_no_tokens_refuted : exists s us, parses s us /\ us <> [] /\ check_regexp [] s = Err EIndexError.
Proof.
  exists "ns", [mkUnit "n" None; mkUnit "s" None]; split; [|split; [discriminate|reflexivity]].
  apply p_plain; [split; discriminate|cbn; discriminate|]; apply p_plain; [split; discriminate|intros []|constructor].
Qed.

Example C41_case :
  choose ws ints " 5  megabytes " = Ok (5 * 1024 * 1024)%Z /\ choose ws ints "5 mb" = Ok (5 * 1024 * 1024)%Z /\
  choose ws ints "-3 mb" = Err EValueError /\ choose ws ints "mb 5" = Err EValueError /\ choose ws ints "5mb" = Err EValueError /\
  rotator_init ws ints (Some "5 mb; 10 kb, >> my logs ") true = Ok ([(5 * 1024 * 1024)%Z; (10 * 1024)%Z], "my logs") /\
  must_rotate [5%Z; 10%Z] 7 = true /\ must_rotate [5%Z; 10%Z] 4 = false.
Proof. vm_compute; repeat split. Qed.

Example C41_hypothesis_holds : forall b p, In (b, p) unit_power -> ints b = None.
Proof. intros b p H; unfold unit_power in H; cbn [In] in H; repeat (destruct H as [H|H]; [injection H as <- <-; reflexivity|]); destruct H. Qed.

Example C43_case :
  get_lock_types ws (LStr " thread +file") = Ok ["file"; "thread"] /\ get_lock_types ws (LStr "+") = Ok [] /\
  get_lock_types ws (LStr "  ") = Err EValueError /\ get_lock_types ws (LStr "file + file") = Err EValueError /\
  get_lock_types ws (LStr "thread+process") = Err EValueError /\ lock_names ws " thread +file" = ["thread"; "file"].
Proof. vm_compute; repeat split. Qed.

Print Assumptions C40_parse.
Print Assumptions C40_match.
Print Assumptions C40_edge_cases.
Print Assumptions C40_unclosed_bracket_refuted.
Print Assumptions C40_no_tokens_refuted.
Print Assumptions C41_rule.
Print Assumptions C41_rule_text.
Print Assumptions C41_rules.
Print Assumptions C41_trigger.
Print Assumptions C41_command.
Print Assumptions C43_parse.
Print Assumptions C43_none_and_other.
Print Assumptions C43_only_names_matter.
