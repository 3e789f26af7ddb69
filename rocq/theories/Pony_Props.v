(** C45: automatically generated names. *)
From Coq Require Import Ascii Lia Permutation NArith.
From Verif Require Import Base Pony_Model.
Local Open Scope string_scope.
Local Open Scope list_scope.

(** A Python identifier of ASCII letters, digits and underscores. *)
Definition letter (c : ascii) : bool :=
  let n := nat_of_ascii c in ((Nat.leb 65 n && Nat.leb n 90) || (Nat.leb 97 n && Nat.leb n 122) || Nat.eqb n 95)%bool.
Definition numeral (c : ascii) : bool := let n := nat_of_ascii c in (Nat.leb 48 n && Nat.leb n 57)%bool.
Fixpoint all_chars (f : ascii -> bool) (s : string) : bool := match s with EmptyString => true | String c r => (f c && all_chars f r)%bool end.
Definition identifier (s : string) : bool :=
  match s with EmptyString => false | String c r => (letter c && all_chars (fun c => letter c || numeral c) r)%bool end.

(** ** Reading a roman numeral back *)
Definition letter_value (c : ascii) : N :=
  (if Ascii.eqb c "I" then 1 else if Ascii.eqb c "V" then 5 else if Ascii.eqb c "X" then 10 else if Ascii.eqb c "L" then 50
   else if Ascii.eqb c "C" then 100 else if Ascii.eqb c "D" then 500 else if Ascii.eqb c "M" then 1000 else 0)%N.
(** A letter before a greater one is subtracted. *)
Fixpoint value (s : string) : N :=
  match s with
  | EmptyString => 0
  | String c r => match r with
                  | EmptyString => letter_value c
                  | String d _ => if (letter_value c <? letter_value d)%N then value r - letter_value c else letter_value c + value r
                  end
  end%N.

(** The usual way to write a number: the greatest possible sign first. *)
Definition signs : list (N * string) :=
  [(1000, "M"); (900, "CM"); (500, "D"); (400, "CD"); (100, "C"); (90, "XC"); (50, "L"); (40, "XL"); (10, "X"); (9, "IX"); (5, "V"); (4, "IV"); (1, "I")]%N.
Fixpoint write_roman (steps : nat) (l : list (N * string)) (n : N) : string :=
  match steps with
  | 0 => EmptyString
  | S steps => match l with
               | [] => EmptyString
               | (v, t) :: r => if (v <=? n)%N then String.append t (write_roman steps l (n - v)) else write_roman steps r n
               end
  end.
Definition roman (n : N) : string := write_roman 40 signs n.

Definition roman_of (a b c d : nat) : string :=
  String.append (nth a thous "") (String.append (nth b hunds "") (String.append (nth c tens "") (nth d ones ""))).
Definition roman_char (c : ascii) : bool := negb (N.eqb (letter_value c) 0).
Definition digits4 : list (nat * (nat * (nat * nat))) := list_prod (seq 0 5) (list_prod (seq 0 10) (list_prod (seq 0 10) (seq 0 10))).
Lemma roman_table : forallb (fun p => match p with (a, (b, (c, d))) =>
  (N.eqb (value (roman_of a b c d)) (1000 * N.of_nat a + 100 * N.of_nat b + 10 * N.of_nat c + N.of_nat d) && all_chars roman_char (roman_of a b c d) &&
   String.eqb (roman_of a b c d) (roman (1000 * N.of_nat a + 100 * N.of_nat b + 10 * N.of_nat c + N.of_nat d)))%bool end) digits4 = true.
Proof. vm_compute; reflexivity. Qed.

Lemma item_nth : forall l i, i < length l -> item l i = Ok (nth i l "").
Proof. intros l i L; unfold item; destruct (nth_error l i) eqn:E; [rewrite (nth_error_nth _ _ _ E); reflexivity|apply nth_error_None in E; lia]. Qed.
Lemma below_div : forall n a b, b <> 0 -> n < a * b -> n / b < a.
Proof. intros n a b B L; apply Nat.div_lt_upper_bound; [exact B|rewrite Nat.mul_comm; exact L]. Qed.
Lemma roman_is : forall n, 0 < n -> n < 5 * 1000 -> roman_numerals n = Ok (roman_of (n / 1000) (n / 100 mod 10) (n / 10 mod 10) (n mod 10)).
Proof.
  intros n P L; unfold roman_numerals; destruct (Nat.ltb_spec 0 n) as [_|]; [|lia].
  assert (M : forall k, k mod 10 < 10) by (intros k; apply Nat.mod_upper_bound; lia).
  rewrite (item_nth thous) by (apply (below_div n 5 1000); [lia|exact L]); cbn [bindR].
  rewrite (item_nth hunds) by apply (M (n / 100)); cbn [bindR]; rewrite (item_nth tens) by apply (M (n / 10)); cbn [bindR].
  rewrite (item_nth ones) by apply (M n); reflexivity.
Qed.
Lemma decimal : forall n, n = 1000 * (n / 1000) + 100 * (n / 100 mod 10) + 10 * (n / 10 mod 10) + n mod 10.
Proof.
  intros n; replace (n / 1000) with (n / 10 / 10 / 10) by (rewrite !Nat.div_div by lia; reflexivity).
  replace (n / 100) with (n / 10 / 10) by (rewrite Nat.div_div by lia; reflexivity).
  pose proof (Nat.div_mod n 10 ltac:(lia)); pose proof (Nat.div_mod (n / 10) 10 ltac:(lia)); pose proof (Nat.div_mod (n / 10 / 10) 10 ltac:(lia)); lia.
Qed.
Lemma roman_value : forall n, 0 < n -> n < 5 * 1000 -> exists r, roman_numerals n = Ok r /\ value r = N.of_nat n /\ all_chars roman_char r = true /\ r = roman (N.of_nat n).
Proof.
  intros n P L; eexists; split; [apply roman_is; assumption|].
  assert (M : forall k, k mod 10 < 10) by (intros k; apply Nat.mod_upper_bound; lia).
  pose proof roman_table as T; rewrite forallb_forall in T.
  specialize (T (n / 1000, (n / 100 mod 10, (n / 10 mod 10, n mod 10)))); cbv beta iota in T.
  assert (I : In (n / 1000, (n / 100 mod 10, (n / 10 mod 10, n mod 10))) digits4).
  { unfold digits4; repeat apply in_prod; apply in_seq; split; try apply Nat.le_0_l; [apply (below_div n 5 1000); [lia|exact L]| | |]; apply M. }
  apply T in I; apply andb_prop in I; destruct I as [I I3]; apply andb_prop in I; destruct I as [I1 I2]; apply N.eqb_eq in I1; apply String.eqb_eq in I3.
  assert (Q : (1000 * N.of_nat (n / 1000) + 100 * N.of_nat (n / 100 mod 10) + 10 * N.of_nat (n / 10 mod 10) + N.of_nat (n mod 10) = N.of_nat n)%N).
  { pose proof (decimal n) as D; remember (n / 1000) as a; remember (n / 100 mod 10) as b; remember (n / 10 mod 10) as c; remember (n mod 10) as d; lia. }
  rewrite Q in I1, I3; split; [exact I1|]; split; [exact I2|exact I3].
Qed.
(** C45: the roman numerals are right up to 4999, and different. *)
Theorem C45_roman : forall n m r, 0 < n -> n < 5 * 1000 -> roman_numerals n = Ok r ->
  value r = N.of_nat n /\ r = roman (N.of_nat n) /\ (0 < m -> roman_numerals m = Ok r -> m = n).
Proof.
  assert (OUT : forall n r, 0 < n -> roman_numerals n = Ok r -> n < 5 * 1000).
  { intros n r P E; unfold roman_numerals in E; destruct (Nat.ltb_spec 0 n) as [_|]; [|lia].
    destruct (item thous (n / 1000)) eqn:Q; [|discriminate]; unfold item in Q; destruct (nth_error thous (n / 1000)) eqn:Z; [|discriminate].
    assert (K : n / 1000 < length thous) by (apply nth_error_Some; rewrite Z; discriminate); change (length thous) with 5 in K.
    destruct (Nat.lt_ge_cases n (5 * 1000)) as [X|X]; [exact X|exfalso].
    apply (Nat.div_le_mono _ _ 1000) in X; [|lia]; rewrite Nat.div_mul in X by lia; lia. }
  intros n m r P L E; destruct (roman_value n P L) as (r' & E' & V & _ & G); rewrite E in E'; injection E' as <-; split; [exact V|]; split; [exact G|].
  intros Pm Em; destruct (roman_value m Pm (OUT m r Pm Em)) as (r' & E' & V' & _); rewrite Em in E'; injection E' as <-; lia.
Qed.

(** ** Names *)
Fixpoint no_char (x : ascii) (s : string) : bool := match s with EmptyString => true | String c r => (negb (Ascii.eqb c x) && no_char x r)%bool end.
(** The part after the last occurrence of [x] (the whole string if there is none). *)
Fixpoint last_part (x : ascii) (s : string) : string :=
  match s with EmptyString => EmptyString | String c r => if no_char x r then (if Ascii.eqb c x then r else s) else last_part x r end.
Lemma no_char_app : forall x a b, no_char x (String.append a b) = (no_char x a && no_char x b)%bool.
Proof. induction a as [|c a IH]; intros b; cbn; [reflexivity|rewrite IH, andb_assoc; reflexivity]. Qed.
Lemma last_part_app : forall x a b, no_char x b = true -> last_part x (String.append a (String x b)) = b.
Proof.
  induction a as [|c a IH]; intros b N; cbn; [rewrite N, Ascii.eqb_refl; reflexivity|].
  rewrite no_char_app; cbn; rewrite Ascii.eqb_refl; cbn; rewrite andb_false_r; apply IH, N.
Qed.
Lemma append_inj_l : forall a b c, String.append a c = String.append b c -> a = b.
Proof.
  assert (L : forall a b, String.length (String.append a b) = String.length a + String.length b) by (induction a as [|x a IH]; intros b; cbn; [reflexivity|rewrite IH; reflexivity]).
  induction a as [|x a IH]; intros [|y b] c E; cbn in E; [reflexivity| | |].
  - apply (f_equal String.length) in E; cbn in E; rewrite L in E; lia.
  - apply (f_equal String.length) in E; cbn in E; rewrite L in E; lia.
  - injection E as -> E; f_equal; apply (IH b c E).
Qed.
Lemma replace_app : forall a b, replace_spaces (String.append a b) = String.append (replace_spaces a) (replace_spaces b).
Proof. induction a as [|c a IH]; intros b; cbn; [reflexivity|rewrite IH; reflexivity]. Qed.

Definition portion' : list string := map replace_spaces new_names_portion.
Lemma portion_facts : NoDup portion' /\ forallb identifier portion' = true /\ forallb (fun s => negb (all_chars roman_char (last_part "_" s))) portion' = true.
Proof.
  split; [|split; vm_compute; reflexivity].
  assert (G : forall l, (fix nd (l : list string) : bool := match l with [] => true | x :: r => (negb (existsb (String.eqb x) r) && nd r)%bool end) l = true -> NoDup l).
  { induction l as [|x l IH]; intros H; constructor; apply andb_prop in H; destruct H as [H1 H2]; [|apply IH, H2].
    intros K; apply negb_true_iff in H1; rewrite <- not_true_iff_false in H1; apply H1, existsb_exists; exists x; split; [exact K|apply String.eqb_refl]. }
  apply G; vm_compute; reflexivity.
Qed.
Lemma roman_chars : forall r, all_chars roman_char r = true ->
  no_char "_" r = true /\ replace_spaces r = r /\ all_chars (fun c => letter c || numeral c) r = true.
Proof.
  assert (C : forall c, roman_char c = true -> In c ["I"; "V"; "X"; "L"; "C"; "D"; "M"]%char).
  { intros c; unfold roman_char, letter_value; cbn [In].
    destruct (Ascii.eqb_spec c "I"); [auto|]; destruct (Ascii.eqb_spec c "V"); [auto|]; destruct (Ascii.eqb_spec c "X"); [auto|].
    destruct (Ascii.eqb_spec c "L"); [auto|]; destruct (Ascii.eqb_spec c "C"); [auto 6|]; destruct (Ascii.eqb_spec c "D"); [auto 7|]; destruct (Ascii.eqb_spec c "M"); [auto 8|]; discriminate. }
  induction r as [|c r IH]; intros H; cbn in H; [auto|]; apply andb_prop in H; destruct H as [H1 H2]; destruct (IH H2) as (I1 & I2 & I3).
  cbn; rewrite I1, I2, I3; apply C in H1; cbn in H1; repeat (destruct H1 as [<-|H1]; [auto|]); destruct H1.
Qed.
Lemma identifier_app : forall a b, identifier a = true -> all_chars (fun c => letter c || numeral c) b = true -> identifier (String.append a b) = true.
Proof.
  assert (AC : forall f a b, all_chars f (String.append a b) = (all_chars f a && all_chars f b)%bool) by (induction a as [|x a IH]; intros b; cbn; [reflexivity|rewrite IH, andb_assoc; reflexivity]).
  intros [|x a] b H1 H2; [discriminate|]; cbn in *; apply andb_prop in H1; destruct H1 as [H1 H3]; rewrite AC, H1, H3, H2; reflexivity.
Qed.

Lemma NoDup_app_intro : forall B (l1 l2 : list B), NoDup l1 -> NoDup l2 -> (forall x, In x l1 -> ~ In x l2) -> NoDup (l1 ++ l2).
Proof.
  induction l1 as [|x l1 IH]; intros l2 N1 N2 D; cbn; [exact N2|]; inversion N1; subst; constructor.
  - rewrite in_app_iff; intros [K|K]; [contradiction|apply (D x); [left; reflexivity|exact K]].
  - apply IH; [assumption|assumption|intros y Y; apply D; right; exact Y].
Qed.

Section Names.
  Variable shuffled : nat -> list string.
  (** random.shuffle gives a permutation. *)
  Hypothesis fair : forall e, Permutation (shuffled e) new_names_portion.

  (** The name with the space replaced. *)
  Definition full (e : nat) (name : string) : Res string := bindR (one_name e name) (fun s => Ok (replace_spaces s)).
  Lemma full_is : forall e name, e < 4999 -> exists s, full e name = Ok s /\
    match e with 0 => s = replace_spaces name | _ => exists r, roman_numerals (e + 1) = Ok r /\ all_chars roman_char r = true /\ s = String.append (replace_spaces name) (String "_" r) end.
  Proof.
    intros [|e] name L; [exists (replace_spaces name); split; reflexivity|].
    destruct (roman_value (S e + 1)) as (r & R1 & R2 & R3 & _); [lia|lia|].
    exists (String.append (replace_spaces name) (String "_" r)); unfold full, one_name; rewrite R1; cbn [bindR]; split; [|exists r; auto].
    f_equal; rewrite !replace_app; cbn; do 2 f_equal; apply roman_chars, R3.
  Qed.
  Lemma full_inj : forall e1 e2 n1 n2 s, e1 < 4999 -> e2 < 4999 -> In n1 new_names_portion -> In n2 new_names_portion ->
    full e1 n1 = Ok s -> full e2 n2 = Ok s -> e1 = e2 /\ replace_spaces n1 = replace_spaces n2.
  Proof.
    destruct portion_facts as (_ & _ & PF); rewrite forallb_forall in PF.
    assert (X : forall n1 n2 r, In n1 new_names_portion -> all_chars roman_char r = true -> replace_spaces n1 <> String.append (replace_spaces n2) (String "_" r)).
    { intros n1 n2 r I R E; specialize (PF (replace_spaces n1) (in_map _ _ _ I)); rewrite E, last_part_app in PF by apply (roman_chars r R); rewrite R in PF; discriminate. }
    intros e1 e2 n1 n2 s L1 L2 I1 I2 F1 F2; destruct (full_is e1 n1 L1) as (s1 & S1 & Q1); destruct (full_is e2 n2 L2) as (s2 & S2 & Q2).
    rewrite F1 in S1; injection S1 as <-; rewrite F2 in S2; injection S2 as <-.
    destruct e1 as [|e1], e2 as [|e2].
    - split; congruence.
    - destruct Q2 as (r & _ & R & Q2); exfalso; apply (X n1 n2 r I1 R); congruence.
    - destruct Q1 as (r & _ & R & Q1); exfalso; apply (X n2 n1 r I2 R); congruence.
    - destruct Q1 as (r1 & E1 & R1 & Q1), Q2 as (r2 & E2 & R2 & Q2).
      assert (r1 = r2).
      { rewrite <- (last_part_app "_" (replace_spaces n1) r1) by apply (roman_chars r1 R1); rewrite <- Q1, Q2; apply last_part_app, (roman_chars r2 R2). }
      subst r2; split.
      + destruct (C45_roman (S e1 + 1) (S e2 + 1) r1) as (_ & _ & H); [lia|lia|exact E1|]; specialize (H ltac:(lia) E2); lia.
      + apply (append_inj_l _ _ (String "_" r1)); congruence.
  Qed.

  (** The names given by the first [k] epochs, as used by add_handlers and by the decorator (spaces replaced). *)
  Definition given (k : nat) : list (Res string) := map (fun r => bindR r (fun s => Ok (replace_spaces s))) (get_next_pony shuffled k).
  Lemma given_from : forall k from x, from + k <= 4999 ->
    In x (map (fun r => bindR r (fun s => Ok (replace_spaces s))) (epochs shuffled from k)) ->
    exists e n, from <= e < from + k /\ In n new_names_portion /\ x = full e n.
  Proof.
    induction k as [|k IH]; intros from x L I; cbn in I; [destruct I|]; rewrite map_app in I; apply in_app_or in I; destruct I as [I|I].
    - rewrite map_map in I; apply in_map_iff in I; destruct I as (n & <- & I); exists from, n; split; [lia|]; split; [apply (Permutation_in n (fair from)), I|reflexivity].
    - destruct (IH (S from) x) as (e & n & E & N & Q); [lia|exact I|exists e, n; split; [lia|auto]].
  Qed.
  (** C45: no name is ever repeated, with or without replacing the spaces, for all 4999 epochs that have a numeral; all of them are
      identifiers. *)
  Theorem C45_distinct : forall k, k <= 4999 -> NoDup (given k) /\ NoDup (get_next_pony shuffled k) /\
    forall x, In x (given k) -> exists s, x = Ok s /\ identifier s = true.
  Proof.
    intros k L.
    assert (N : NoDup (given k)).
    { unfold given, get_next_pony.
      assert (G : forall from, from + k <= 4999 -> NoDup (map (fun r => bindR r (fun s => Ok (replace_spaces s))) (epochs shuffled from k))); [|apply G; lia].
      clear L; induction k as [|k IH]; intros from L; cbn [epochs map]; [constructor|].
      rewrite map_app; apply NoDup_app_intro.
      - rewrite map_map; apply (Permutation_NoDup (l := map (fun x => full from x) new_names_portion)).
        + apply Permutation_map, Permutation_sym, fair.
        + assert (F : forall l, NoDup (map replace_spaces l) -> incl l new_names_portion -> NoDup (map (full from) l)).
          { induction l as [|n l IHl]; intros D I; [constructor|]; cbn [map] in D |- *; inversion D as [|y q D1 D2]; subst; constructor.
            - intros K; apply in_map_iff in K; destruct K as (m & E & K); destruct (full_is from n) as (s & S & _); [lia|].
              destruct (full_inj from from m n s) as [_ Q]; [lia|lia|apply I; right; exact K|apply I; left; reflexivity|congruence|exact S|].
              apply D1; rewrite <- Q; apply in_map, K.
            - apply IHl; [exact D2|intros z Z; apply I; right; exact Z]. }
          apply F; [apply portion_facts|apply incl_refl].
      - apply IH; lia.
      - intros x I1 I2; rewrite map_map in I1; apply in_map_iff in I1; destruct I1 as (n & <- & I1).
        destruct (given_from k (S from) _ ltac:(lia) I2) as (e & m & E & M & Q); destruct (full_is from n) as (s & S & _); [lia|].
        assert (In n new_names_portion) by (apply (Permutation_in n (fair from)), I1).
        destruct (full_inj from e n m s) as [Z _]; [lia|lia|assumption|exact M|exact S| |lia].
        transitivity (full from n); [symmetry; exact Q|exact S]. }
    split; [exact N|]; split; [apply (NoDup_map_inv _ _ N)|].
    intros x I; destruct (given_from k 0 x ltac:(lia) I) as (e & n & E & M & ->); destruct (full_is e n) as (s & S & Q); [lia|].
    exists s; split; [exact S|]; destruct portion_facts as (_ & PF & _); rewrite forallb_forall in PF; specialize (PF _ (in_map replace_spaces _ _ M)).
    destruct e; [subst s; exact PF|]; destruct Q as (r & _ & R & ->); apply identifier_app; [exact PF|]; exact (proj2 (proj2 (roman_chars r R))).
  Qed.
  (** C45: there are 74 of them per epoch; in epoch 4999 the table of numerals is exhausted: IndexError. *)
  Theorem C45_count : forall k, length (get_next_pony shuffled k) = k * 74.
  Proof.
    intros k; unfold get_next_pony; assert (G : forall from, length (epochs shuffled from k) = k * 74); [|apply G].
    induction k as [|k IH]; intros from; cbn [epochs]; [reflexivity|].
    rewrite app_length, map_length, IH, (Permutation_length (fair from)); reflexivity.
  Qed.
  Theorem C45_exhausted : forall name, one_name 4999 name = Err EIndexError.
  Proof.
    intros name; unfold one_name, roman_numerals; change (Nat.ltb 0 (4999 + 1)) with true; cbv beta iota.
    replace ((4999 + 1) / 1000) with 5; [reflexivity|]; symmetry; change (4999 + 1) with (5 * 1000); apply Nat.div_mul; lia.
  Qed.
End Names.

Example ex_ponies : one_name 0 "Rari Dash" = Ok "Rari Dash" /\ one_name 1 "Rari Dash" = Ok "Rari Dash II" /\ full 1993 "Princess Skyre" = Ok "Princess_Skyre_MCMXCIV" /\
  length new_names_portion = 74.
Proof. vm_compute; repeat split. Qed.

Print Assumptions C45_roman.
Print Assumptions C45_distinct.
Print Assumptions C45_count.
Print Assumptions C45_exhausted.
