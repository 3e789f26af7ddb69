(** Numbers written in decimal, said by how they are read: used by the specifications of the names of levels and of the lines of a file. *)
From Coq Require Import ZArith Lia DecimalString DecimalPos DecimalN DecimalFacts.
From Verif Require Import Base Settings_Model.
Local Open Scope string_scope.
Local Open Scope list_scope.

(** Reading digits from the left, and a whole number with or without a sign. *)
Definition digit_value (c : ascii) : option Z :=
  let n := Z.of_nat (nat_of_ascii c) in if (48 <=? n)%Z && (n <=? 57)%Z then Some (n - 48)%Z else None.
Fixpoint read_digits (acc : Z) (s : string) : option Z :=
  match s with
  | EmptyString => Some acc
  | String c r => match digit_value c with Some d => read_digits (10 * acc + d)%Z r | None => None end
  end.
Definition read_number (s : string) : option Z :=
  match s with
  | EmptyString => None
  | String c r => if Ascii.eqb c "-" then match r with EmptyString => None | _ => option_map Z.opp (read_digits 0 r) end else read_digits 0 s
  end.
(** No zeros in front: the number is the text "0", or the first digit is another one. *)
Definition plain_digits (s : string) : Prop := exists c r, s = String c r /\ c <> "0"%char.
Definition decimal (s : string) (z : Z) : Prop :=
  read_number s = Some z /\ (s = "0" \/ plain_digits s /\ (forall r, s = String "-" r -> plain_digits r)).

Lemma read_digits_acc : forall u p, read_digits (Zpos p) (NilEmpty.string_of_uint u) = Some (Zpos (Pos.of_uint_acc u p)).
Proof.
  induction u as [|u IH|u IH|u IH|u IH|u IH|u IH|u IH|u IH|u IH|u IH]; intros p; [reflexivity|..];
    cbn [NilEmpty.string_of_uint read_digits Pos.of_uint_acc];
    match goal with |- context [digit_value ?c] => let d := eval vm_compute in (digit_value c) in change (digit_value c) with d end; cbv iota;
    rewrite <- IH; f_equal; lia.
Qed.
Lemma read_digits_uint : forall u, read_digits 0 (NilEmpty.string_of_uint u) = Some (Z.of_N (Pos.of_uint u)).
Proof.
  induction u as [|u IH|u IH|u IH|u IH|u IH|u IH|u IH|u IH|u IH|u IH]; [reflexivity|..];
    cbn [NilEmpty.string_of_uint read_digits Pos.of_uint];
    match goal with |- context [digit_value ?c] => let d := eval vm_compute in (digit_value c) in change (digit_value c) with d end; cbv iota;
    [exact IH|..]; exact (read_digits_acc u _).
Qed.
Lemma to_uint_head : forall p, exists c r, NilZero.string_of_uint (Pos.to_uint p) = String c r /\ c <> "0"%char /\ c <> "-"%char /\
  NilZero.string_of_uint (Pos.to_uint p) = NilEmpty.string_of_uint (Pos.to_uint p).
Proof.
  intros p. pose proof (DecimalPos.Unsigned.of_to p) as E.
  pose proof (DecimalN.Unsigned.to_of (Pos.to_uint p)) as U. unfold N.of_uint in U. rewrite E in U. cbn [N.to_uint] in U.
  destruct (Pos.to_uint p) as [|u|u|u|u|u|u|u|u|u|u];
    [discriminate E| |cbn [NilZero.string_of_uint NilEmpty.string_of_uint]; eexists _, _; repeat split; discriminate..].
  exfalso. unfold Decimal.unorm in U. destruct (Decimal.nzhead (Decimal.D0 u)) as [|v|v|v|v|v|v|v|v|v|v] eqn:Z; try discriminate U.
  - injection U as ->. discriminate E.
  - exact (DecimalFacts.nzhead_nonzero _ _ Z).
Qed.

(** The text of a number (str(…) of an int) reads as this number, without zeros in front. *)
Lemma str_decimal : forall z, decimal (str_of_Z z) z.
Proof.
  intros [|p|p]; unfold str_of_Z; cbn [Z.to_int NilZero.string_of_int].
  - split; [reflexivity|left; reflexivity].
  - destruct (to_uint_head p) as (c & r & E & N & M & F). split.
    + unfold read_number. rewrite E. destruct (Ascii.eqb_spec c "-"); [contradiction|]. rewrite <- E, F, read_digits_uint, DecimalPos.Unsigned.of_to. reflexivity.
    + right. split; [exists c, r; split; [exact E|exact N]|]. intros q Q. rewrite E in Q. injection Q as -> _. contradiction.
  - destruct (to_uint_head p) as (c & r & E & N & M & F). split.
    + unfold read_number. rewrite E. change (Ascii.eqb "-" "-") with true. cbv iota. rewrite <- E, F, read_digits_uint, DecimalPos.Unsigned.of_to. reflexivity.
    + right. split; [eexists _, _; split; [reflexivity|discriminate]|]. intros q Q. injection Q as <-. exists c, r; split; [exact E|exact N].
Qed.
