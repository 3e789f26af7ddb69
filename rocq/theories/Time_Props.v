(** C52: the duration in a log line. *)
From Coq Require Import Lia Ascii.
From Verif Require Import Base Name_Model Name_Props Time_Model.
Local Open Scope char_scope.
Local Open Scope list_scope.

(** ** Specification: reading a decimal number, in units of 10^-k. *)
Definition digit_value (c : ascii) : nat := nat_of_ascii c - 48.
Definition value (l : list ascii) : nat := fold_left (fun a c => 10 * a + digit_value c) l 0.
Fixpoint split_dot (l : list ascii) : list ascii * option (list ascii) :=
  match l with
  | [] => ([], None)
  | c :: r => if Ascii.eqb c "." then ([], Some r) else let (a, b) := split_dot r in (c :: a, b)
  end.
(** None: not a number. *)
Definition reads (k : nat) (t : list ascii) : option (bool * nat) :=
  let (neg, t) := match t with "-" :: r => (true, r) | _ => (false, t) end in
  match split_dot t with
  | ([], _) => None
  | (a, None) => Some (neg, value a * 10 ^ k)
  | (a, Some b) => Some (neg, value a * 10 ^ k + value b * 10 ^ (k - length b))
  end.

(** ** Digits *)
Notation all_digits l := (Forall (fun c => is_digit c = true) l).
Lemma value_snoc : forall l c, value (l ++ [c]) = 10 * value l + digit_value c.
Proof. intros l c; unfold value; rewrite fold_left_app; reflexivity. Qed.
Lemma digit_value_is : forall n, n < 10 -> digit_value (digit n) = n.
Proof. intros n L; unfold digit_value; rewrite digit_code by exact L; lia. Qed.
Lemma value_digits : forall k n, n < 10 ^ k -> value (digits k n) = n.
Proof.
  induction k as [|k IH]; intros n L; [cbn in *; lia|]. cbn [digits]. rewrite value_snoc, IH, digit_value_is by (try apply mod10; apply div10; exact L).
  pose proof (Nat.div_mod n 10 ltac:(lia)); lia.
Qed.
Lemma value_dec_fuel : forall f n, n < f -> value (dec_fuel f n) = n.
Proof.
  induction f as [|f IH]; intros n L; [lia|]. cbn [dec_fuel]. rewrite value_snoc, digit_value_is by apply mod10. destruct (Nat.ltb_spec n 10) as [H|H].
  - change (value []) with 0. rewrite Nat.mod_small by exact H. lia.
  - rewrite IH by (pose proof (Nat.div_lt n 10); lia). pose proof (Nat.div_mod n 10 ltac:(lia)); lia.
Qed.
Lemma value_dec : forall n, value (dec n) = n.
Proof. intros n; apply value_dec_fuel; lia. Qed.
Lemma dec_digits : forall n, all_digits (dec n).
Proof. intros n; apply dec_fuel_are. Qed.
Lemma dec_nonempty : forall n, dec n <> [].
Proof. intros n E. unfold dec in E. cbn [dec_fuel] in E. apply app_eq_nil in E; destruct E as [_ E]; discriminate. Qed.
Lemma digit_not : forall c, is_digit c = true -> Ascii.eqb c "." = false /\ Ascii.eqb c "-" = false.
Proof. intros c D; split; [destruct (Ascii.eqb_spec c ".") as [->|]|destruct (Ascii.eqb_spec c "-") as [->|]]; try reflexivity; discriminate. Qed.
Lemma value_zero : forall l, all_digits l -> value l = 0 -> Forall (fun c => c = "0") l.
Proof.
  induction l as [|c l IH] using rev_ind; intros F E; [constructor|]. rewrite value_snoc in E. apply Forall_app in F; destruct F as (F1 & F2). inversion F2; subst.
  apply Forall_app; split; [apply IH; [exact F1|lia]|constructor; [|constructor]].
  assert (Z : digit_value c = 0) by lia. unfold digit_value in Z. unfold is_digit in *. match goal with H : _ && _ = true |- _ => apply andb_prop in H; destruct H as (A & B) end.
  apply Nat.leb_le in A. assert (X : nat_of_ascii c = 48) by lia. rewrite <- (ascii_nat_embedding c), X. reflexivity.
Qed.

(** ** Stripping *)
Lemma rstrip_snoc : forall set l c, rstrip set (l ++ [c]) = if set c then rstrip set l else l ++ [c].
Proof. intros set l c; unfold rstrip; rewrite rev_app_distr; cbn [rev app lstrip]. destruct (set c); [reflexivity|]. cbn [rev]; rewrite rev_involutive; reflexivity. Qed.
Lemma rstrip_nil : forall set, rstrip set [] = [].
Proof. reflexivity. Qed.
(** A list of digits loses its zeros. *)
Lemma rstrip_digits : forall l, all_digits l -> exists s j, rstrip zero_or_dot l = s /\ l = s ++ repeat "0" j /\ (s = [] \/ exists s' c, s = s' ++ [c] /\ c <> "0") /\ forall p, rstrip zero_or_dot (p ++ l) = match s with [] => rstrip zero_or_dot p | _ => p ++ s end.
Proof.
  induction l as [|c l IH] using rev_ind; intros F.
  - exists [], 0. split; [reflexivity|split; [reflexivity|split; [left; reflexivity|]]]. intros p; rewrite app_nil_r; reflexivity.
  - apply Forall_app in F; destruct F as (F1 & F2). inversion F2; subst. destruct (digit_not c) as (D & _); [assumption|].
    rewrite rstrip_snoc. unfold zero_or_dot at 1. rewrite D, Bool.orb_false_r. destruct (Ascii.eqb_spec c "0") as [->|N].
    + destruct (IH F1) as (s & j & A & B & C & P). exists s, (S j). split; [exact A|split; [|split; [exact C|]]].
      * rewrite B at 1. rewrite <- app_assoc. f_equal. clear. induction j as [|j IHj]; [reflexivity|cbn in *; rewrite IHj; reflexivity].
      * intros p. rewrite app_assoc, rstrip_snoc. cbn [zero_or_dot Ascii.eqb Bool.eqb orb]. apply P.
    + exists (l ++ [c]), 0. split; [reflexivity|split; [cbn; rewrite app_nil_r; reflexivity|split; [right; exists l, c; auto|]]].
      intros p. rewrite app_assoc, rstrip_snoc. unfold zero_or_dot. rewrite D, Bool.orb_false_r. destruct (Ascii.eqb_spec c "0"); [contradiction|].
      rewrite <- app_assoc. destruct (l ++ [c]) as [|x q] eqn:E; [destruct l; discriminate|reflexivity].
Qed.
Lemma value_zeros : forall s j, value (s ++ repeat "0" j) = value s * 10 ^ j.
Proof.
  intros s j; revert s; induction j as [|j IH]; intros s; [cbn [repeat]; rewrite app_nil_r; cbn; lia|].
  change (s ++ repeat "0" (S j)) with (s ++ ["0"] ++ repeat "0" j). rewrite app_assoc, IH, value_snoc. change (digit_value "0") with 0. rewrite Nat.pow_succ_r'. lia.
Qed.
Lemma split_digits : forall a, all_digits a -> split_dot a = (a, None).
Proof. induction a as [|c a IH]; intros F; [reflexivity|]. inversion F; subst. cbn [split_dot]. destruct (digit_not c) as (-> & _); [assumption|]. rewrite IH by assumption; reflexivity. Qed.
Lemma split_dotted : forall a b, all_digits a -> split_dot (a ++ "." :: b) = (a, Some b).
Proof. induction a as [|c a IH]; intros b F; [reflexivity|]. inversion F; subst. cbn [split_dot app]. destruct (digit_not c) as (-> & _); [assumption|]. rewrite IH by assumption; reflexivity. Qed.
Lemma no_minus : forall c (r : list ascii), is_digit c = true -> (match c :: r with "-" :: r => (true, r) | _ => (false, c :: r) end) = (false, c :: r).
Proof. intros c r D. assert (N : c <> "-") by (intros ->; discriminate). clear D. destruct c as [b0 b1 b2 b3 b4 b5 b6 b7]. destruct b0, b1, b2, b3, b4, b5, b6, b7; try reflexivity. elim N; reflexivity. Qed.
Lemma reads_whole : forall k (neg : bool) a, all_digits a -> a <> [] -> reads k ((if neg then ["-"] else []) ++ a) = Some (neg, value a * 10 ^ k).
Proof.
  intros k neg a F N. unfold reads. destruct neg; cbn [app].
  - rewrite split_digits by exact F. destruct a; [elim N; reflexivity|reflexivity].
  - destruct a as [|c a]; [elim N; reflexivity|]. rewrite no_minus by (inversion F; assumption). rewrite split_digits by exact F. reflexivity.
Qed.
Lemma reads_dotted : forall k (neg : bool) a b, all_digits a -> a <> [] -> reads k ((if neg then ["-"] else []) ++ a ++ "." :: b) = Some (neg, value a * 10 ^ k + value b * 10 ^ (k - length b)).
Proof.
  intros k neg a b F N. unfold reads. destruct neg; cbn [app].
  - rewrite split_dotted by exact F. destruct a; [elim N; reflexivity|reflexivity].
  - destruct a as [|c a]; [elim N; reflexivity|]. cbn [app]. rewrite no_minus by (inversion F; assumption).
    change (c :: a ++ "." :: b) with ((c :: a) ++ "." :: b). rewrite split_dotted by exact F. reflexivity.
Qed.

(** ** Theorems, for any number of decimals *)
Lemma fixed_parts : forall k n, n = (n / 10 ^ k) * 10 ^ k + n mod 10 ^ k.
Proof. intros k n. pose proof (Nat.div_mod n (10 ^ k) ltac:(apply Nat.pow_nonzero; lia)). lia. Qed.
Lemma pow_pos : forall k, 10 ^ k <> 0.
Proof. intros k; apply Nat.pow_nonzero; lia. Qed.
Lemma number_fraction : forall k neg n, n mod 10 ^ k <> 0 -> exists s j, digits k (n mod 10 ^ k) = s ++ repeat "0" j /\ (exists s' c, s = s' ++ [c] /\ c <> "0") /\
  number k neg n = (if neg then ["-"] else []) ++ dec (n / 10 ^ k) ++ "." :: s.
Proof.
  intros k neg n Z. destruct (rstrip_digits (digits k (n mod 10 ^ k)) (digits_are _ _)) as (s & j & A & B & C & P). exists s, j. split; [exact B|].
  assert (Ns : s <> []).
  { intros ->. apply Z. rewrite <- (value_digits k (n mod 10 ^ k)) by (apply Nat.mod_upper_bound, pow_pos). rewrite B, (value_zeros [] j). reflexivity. }
  split; [destruct C as [C|C]; [contradiction|exact C]|]. unfold number, fixed. change ("." :: digits k (n mod 10 ^ k)) with (["."] ++ digits k (n mod 10 ^ k)). rewrite !app_assoc, P. destruct s; [elim Ns; reflexivity|].
  rewrite <- !app_assoc. reflexivity.
Qed.
Lemma number_whole : forall k neg n, n mod 10 ^ k = 0 -> number k neg n = rstrip zero_or_dot ((if neg then ["-"] else []) ++ dec (n / 10 ^ k)).
Proof.
  intros k neg n Z. unfold number, fixed. rewrite Z.
  assert (D0 : forall k, exists j, digits k 0 = repeat "0" j).
  { clear. induction k as [|k (j & IH)]; [exists 0; reflexivity|]. exists (S j). cbn [digits]. change (0 / 10) with 0. rewrite IH. clear. change (digit (0 mod 10)) with "0". induction j as [|j IH]; [reflexivity|cbn in *; rewrite IH; reflexivity]. }
  destruct (D0 k) as (j & ->). change ("." :: repeat "0" j) with (["."] ++ repeat "0" j). rewrite !app_assoc.
  induction j as [|j IH].
  - cbn [repeat]. rewrite app_nil_r, rstrip_snoc. reflexivity.
  - assert (R : repeat "0" (S j) = repeat "0" j ++ ["0"]) by (clear; induction j as [|j IH]; [reflexivity|cbn in *; rewrite <- IH; reflexivity]).
    rewrite R, app_assoc, rstrip_snoc. cbn [zero_or_dot Ascii.eqb Bool.eqb orb]. exact IH.
Qed.

(** A duration with a fraction is written exactly, without superfluous zeros. *)
Theorem C52_fraction : forall k neg n, n mod 10 ^ k <> 0 ->
  reads k (number k neg n) = Some (neg, n) /\ exists p c, number k neg n = p ++ [c] /\ c <> "0" /\ c <> ".".
Proof.
  intros k neg n Z. destruct (number_fraction k neg n Z) as (s & j & B & (s' & c & Es & Nc) & ->).
  pose proof (digits_are k (n mod 10 ^ k)) as FD. rewrite B in FD. apply Forall_app in FD; destruct FD as (FD & _).
  assert (L : length s + j = k) by (rewrite <- (digits_length k (n mod 10 ^ k)), B, app_length, repeat_length; reflexivity).
  split.
  - rewrite reads_dotted by (try apply dec_digits; apply dec_nonempty). rewrite value_dec.
    assert (V : value s * 10 ^ (k - length s) = n mod 10 ^ k).
    { pose proof (value_digits k (n mod 10 ^ k) ltac:(apply Nat.mod_upper_bound, pow_pos)) as W. rewrite B, value_zeros in W. rewrite <- W. f_equal. f_equal. lia. }
    rewrite V, <- fixed_parts. reflexivity.
  - exists ((if neg then ["-"] else []) ++ dec (n / 10 ^ k) ++ "." :: s'), c. split; [rewrite Es, <- !app_assoc; reflexivity|split; [exact Nc|]].
    rewrite Es in FD. apply Forall_app in FD; destruct FD as (_ & FD). inversion FD; subst. intros ->; discriminate.
Qed.
(** A whole number of seconds is written as it is when its last digit is not zero. *)
Theorem C52_whole : forall k neg n, n mod 10 ^ k = 0 -> (n / 10 ^ k) mod 10 <> 0 ->
  number k neg n = (if neg then ["-"] else []) ++ dec (n / 10 ^ k) /\ reads k (number k neg n) = Some (neg, n).
Proof.
  intros k neg n Z N. rewrite number_whole by exact Z.
  destruct (rstrip_digits (dec (n / 10 ^ k)) (dec_digits _)) as (s & j & A & B & C & P).
  assert (J : j = 0).
  { destruct j as [|j]; [reflexivity|]. elim N. rewrite <- (value_dec (n / 10 ^ k)), B, value_zeros, Nat.pow_succ_r', Nat.mul_comm, <- Nat.mul_assoc, Nat.mul_comm.
    apply Nat.mod_mul. lia. }
  subst j. cbn [repeat] in B. rewrite app_nil_r in B. rewrite P. destruct s as [|x s]; [elim (dec_nonempty _ B)|]. rewrite <- B. split; [reflexivity|].
  rewrite reads_whole by (try apply dec_digits; apply dec_nonempty). rewrite value_dec. pose proof (fixed_parts k n) as E. rewrite Z, Nat.add_0_r in E. rewrite <- E. reflexivity.
Qed.
(** A whole number of seconds ending in zeros loses them, and is read as a smaller number; zero disappears altogether. *)
Theorem C52_lost : forall k neg n, n mod 10 ^ k = 0 -> (n / 10 ^ k) mod 10 = 0 -> n <> 0 ->
  exists m j, n = m * 10 ^ S j /\ m mod 10 ^ k = 0 /\ (m / 10 ^ k) mod 10 <> 0 /\ number k neg n = number k neg m /\ reads k (number k neg n) = Some (neg, m).
Proof.
  intros k neg n Z N N0. rewrite number_whole by exact Z.
  assert (En : n = n / 10 ^ k * 10 ^ k) by (pose proof (fixed_parts k n) as E; rewrite Z, Nat.add_0_r in E; exact E).
  revert N En. generalize (n / 10 ^ k) as q. intros q N En.
  destruct (rstrip_digits (dec q) (dec_digits _)) as (s & j & A & B & C & P).
  pose proof (dec_digits q) as FD. rewrite B in FD. apply Forall_app in FD; destruct FD as (FD & _).
  assert (V : q = value s * 10 ^ j) by (rewrite <- (value_dec q), B; apply value_zeros).
  destruct C as [->|(s' & c & Es & Nc)]; [elim N0; rewrite En, V; reflexivity|].
  assert (Dc : 0 < digit_value c /\ digit_value c < 10).
  { rewrite Es in FD. apply Forall_app in FD; destruct FD as (_ & FD). inversion FD as [|? ? D _]; subst. unfold is_digit in D. apply andb_prop in D; destruct D as (D1 & D2).
    apply Nat.leb_le in D1. apply Nat.leb_le in D2. unfold digit_value. split; [|lia]. destruct (Nat.eq_dec (nat_of_ascii c) 48) as [E|E]; [|lia].
    elim Nc. rewrite <- (ascii_nat_embedding c), E. reflexivity. }
  assert (Vs : value s mod 10 <> 0).
  { rewrite Es, value_snoc, Nat.add_comm, Nat.mul_comm, Nat.mod_add, Nat.mod_small by lia. lia. }
  destruct j as [|j]; [rewrite V in N; cbn [Nat.pow] in N; rewrite Nat.mul_1_r in N; contradiction|].
  assert (Mq : (value s * 10 ^ k) / 10 ^ k = value s) by (apply Nat.div_mul, pow_pos).
  assert (Mz : (value s * 10 ^ k) mod 10 ^ k = 0) by (apply Nat.mod_mul, pow_pos).
  assert (Wm : number k neg (value s * 10 ^ k) = (if neg then ["-"] else []) ++ dec (value s) /\ reads k (number k neg (value s * 10 ^ k)) = Some (neg, value s * 10 ^ k)).
  { destruct (C52_whole k neg (value s * 10 ^ k) Mz) as (X & Y); [rewrite Mq; exact Vs|]. rewrite Mq in X. auto. }
  destruct Wm as (W1 & W2).
  (* the stripped digits are the digits of the smaller number *)
  assert (DS : s = dec (value s)).
  { assert (SZ : forall i m, m <> 0 -> dec (m * 10 ^ i) = dec m ++ repeat "0" i).
    { clear. induction i as [|i IH]; intros m Hm; [cbn [Nat.pow repeat]; rewrite Nat.mul_1_r, app_nil_r; reflexivity|].
      rewrite Nat.pow_succ_r', (Nat.mul_comm 10), Nat.mul_assoc. 
      assert (D10 : forall x, x <> 0 -> dec (x * 10) = dec x ++ ["0"]).
      { clear. intros x Hx. assert (FU : forall f g x, x < f -> x < g -> dec_fuel f x = dec_fuel g x).
        { clear. induction f as [|f IH]; intros g x Lf Lg; [lia|]. destruct g as [|g]; [lia|]. cbn [dec_fuel]. destruct (Nat.ltb_spec x 10) as [H|H]; [reflexivity|].
          f_equal. apply IH; pose proof (Nat.div_lt x 10); lia. }
        unfold dec. cbn [dec_fuel]. destruct (Nat.ltb_spec (x * 10) 10) as [H|H]; [lia|]. rewrite Nat.div_mul, Nat.mod_mul by lia. f_equal.
        change (dec_fuel (x * 10) x = dec_fuel (S x) x). apply FU; lia. }
      rewrite D10 by (intros E; apply Nat.eq_mul_0 in E; destruct E as [E|E]; [contradiction|exact (pow_pos i E)]). rewrite IH by exact Hm.
      rewrite <- app_assoc. f_equal. clear. induction i as [|i IH]; [reflexivity|cbn in *; rewrite IH; reflexivity]. }
    assert (V0 : value s <> 0) by (intros E; rewrite E in Vs; apply Vs; reflexivity).
    pose proof (SZ (S j) (value s) V0) as X. rewrite <- V, B in X.
    apply (f_equal (@rev ascii)) in X. rewrite !rev_app_distr in X. apply app_inv_head in X. apply (f_equal (@rev ascii)) in X. rewrite !rev_involutive in X. exact X. }
  rewrite P. assert (Ns : s <> []) by (rewrite Es; destruct s'; discriminate). destruct s as [|x s0] eqn:E0; [elim Ns; reflexivity|]. rewrite <- E0 in *. clear Ns.
  exists (value s * 10 ^ k), j. split; [rewrite En, V; lia|split; [exact Mz|split; [rewrite Mq; exact Vs|]]].
  rewrite W1 in *. rewrite <- DS in *. split; [reflexivity|exact W2].
Qed.
Theorem C52_zero : forall k neg, number k neg 0 = if neg then ["-"] else [].
Proof.
  intros k neg. rewrite number_whole by (apply Nat.mod_0_l, pow_pos). rewrite Nat.div_0_l by apply pow_pos. destruct neg; reflexivity.
Qed.

(** So the text does not keep the number: different durations look the same, with any number of decimals. *)
Theorem C52_faithful_refuted : forall k, ~ forall n m, number k false n = number k false m -> n = m.
Proof.
  intros k H. assert (Z : forall q, (q * 10 ^ k) mod 10 ^ k = 0) by (intros q; apply Nat.mod_mul, pow_pos).
  assert (D : forall q, (q * 10 ^ k) / 10 ^ k = q) by (intros q; apply Nat.div_mul, pow_pos).
  specialize (H (1 * 10 ^ k) (10 * 10 ^ k)). assert (X : 1 * 10 ^ k = 10 * 10 ^ k); [|pose proof (pow_pos k); lia].
  apply H. rewrite !number_whole by apply Z. rewrite !D. reflexivity.
Qed.
(** Durations with fractions are kept apart. *)
Theorem C52_fractions_differ : forall k n m, n mod 10 ^ k <> 0 -> m mod 10 ^ k <> 0 -> number k false n = number k false m -> n = m.
Proof.
  intros k n m Hn Hm E. destruct (C52_fraction k false n Hn) as (A & _), (C52_fraction k false m Hm) as (B & _). rewrite E in A. congruence.
Qed.

Example ex_time : number 2 false 150 = ["1"; "."; "5"] /\ number 2 false 1000 = ["1"] /\ number 2 true 7 = ["-"; "0"; "."; "0"; "7"] /\ number 2 false 300 = ["3"].
Proof. repeat split; reflexivity. Qed.

Print Assumptions C52_fraction.
Print Assumptions C52_whole.
Print Assumptions C52_lost.
Print Assumptions C52_zero.
Print Assumptions C52_faithful_refuted.
Print Assumptions C52_fractions_differ.
