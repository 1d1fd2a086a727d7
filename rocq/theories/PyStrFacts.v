(** * PyStrFacts: facts about the Python string operations *)
From Coq Require Import String Ascii List ZArith Bool Decimal DecimalString DecimalZ Lia.
From Verif Require Import PyStr.
Import ListNotations.
Local Open Scope string_scope.

Lemma append_assoc (a b c : string) : (a ++ b) ++ c = a ++ (b ++ c).
Proof. induction a; simpl; congruence. Qed.
Lemma append_nil_r (a : string) : a ++ "" = a.
Proof. induction a; simpl; congruence. Qed.

Fixpoint sall (p : ascii -> bool) (s : string) : bool :=
  match s with EmptyString => true | String a s' => p a && sall p s' end.
Lemma sall_app p s t : sall p (s ++ t) = sall p s && sall p t.
Proof. induction s; simpl; auto. rewrite IHs. apply andb_assoc. Qed.
Lemma sall_impl (p q : ascii -> bool) s : (forall a, p a = true -> q a = true) -> sall p s = true -> sall q s = true.
Proof.
  intro H. induction s; simpl; auto. rewrite !andb_true_iff. intros [A B]. auto.
Qed.
Lemma sall_get p s : sall p s = true <-> forall i a, String.get i s = Some a -> p a = true.
Proof.
  induction s as [|c s IH]; simpl.
  - split; auto. intros _ i a H. discriminate.
  - rewrite andb_true_iff, IH. split.
    + intros [A B] [|i] a H; [inversion H; subst; auto|eauto].
    + intro H. split; [apply (H 0%nat); auto | intros i a Hi; apply (H (S i)); auto].
Qed.

Definition is_digit (a : ascii) : bool := match digit_val a with Some _ => true | None => false end.
Definition int_char (a : ascii) : bool := is_digit a || Ascii.eqb a "-".

Lemma int_char_not_ws a : int_char a = true -> is_ws a = false.
Proof. destruct a as [[] [] [] [] [] [] [] []]; vm_compute; intro H; try discriminate; reflexivity. Qed.
Lemma int_char_not_comma a : int_char a = true -> Ascii.eqb a "," = false.
Proof. destruct a as [[] [] [] [] [] [] [] []]; vm_compute; intro H; try discriminate; reflexivity. Qed.

Lemma string_of_uint_digits u : sall is_digit (NilEmpty.string_of_uint u) = true.
Proof. induction u; simpl; auto. Qed.
Lemma str_of_Z_chars z : sall int_char (str_of_Z z) = true.
Proof.
  assert (G : forall u, sall int_char (NilZero.string_of_uint u) = true).
  { intro u. destruct u; try (apply sall_impl with (p := is_digit);
      [intros a H; unfold int_char; rewrite H; reflexivity | apply (string_of_uint_digits)]). reflexivity. }
  unfold str_of_Z. destruct (Z.to_int z); simpl; auto.
Qed.
Lemma str_of_Z_nonempty z : str_of_Z z <> "".
Proof. unfold str_of_Z. destruct (Z.to_int z) as [u|u]; simpl; [destruct u; discriminate | discriminate]. Qed.

(** strip *)
Lemma rev_string_spec s acc : rev_string s acc = rev_string s "" ++ acc.
Proof.
  revert acc. induction s as [|a s IH]; intro acc; simpl; auto.
  rewrite IH, (IH (String a "")), append_assoc. reflexivity.
Qed.
Lemma rev_string_app s t : rev_string (s ++ t) "" = rev_string t "" ++ rev_string s "".
Proof.
  induction s as [|a s IH]; simpl.
  - rewrite append_nil_r. reflexivity.
  - rewrite rev_string_spec, IH, (rev_string_spec s (String a "")). rewrite append_assoc. reflexivity.
Qed.
Lemma rev_string_invol s : rev_string (rev_string s "") "" = s.
Proof.
  induction s as [|a s IH]; simpl; auto. rewrite (rev_string_spec s (String a "")), rev_string_app, IH. reflexivity.
Qed.
Lemma sall_rev p s : sall p (rev_string s "") = sall p s.
Proof.
  induction s as [|a s IH]; simpl; auto. rewrite (rev_string_spec s (String a "")), sall_app, IH. simpl.
  rewrite andb_true_r. apply andb_comm.
Qed.
Definition not_ws (a : ascii) : bool := negb (is_ws a).
Lemma lstrip_id s : sall not_ws s = true -> lstrip s = s.
Proof.
  destruct s as [|a s]; simpl; auto. unfold not_ws at 1. destruct (is_ws a); simpl; [discriminate|auto].
Qed.
Lemma strip_id s : sall not_ws s = true -> strip s = s.
Proof.
  intro H. unfold strip. rewrite (lstrip_id s) by auto. rewrite lstrip_id by (rewrite sall_rev; auto).
  apply rev_string_invol.
Qed.

(** int(str(z)) = z *)
Lemma int_digits_acc u : forall b acc, b = true \/ u <> Nil ->
  int_digits b (Zpos acc) (NilEmpty.string_of_uint u) = Some (Zpos (Pos.of_uint_acc u acc)).
Proof.
  induction u; intros b acc H;
    [destruct H as [->|H]; [reflexivity|congruence]|..];
    cbn [NilEmpty.string_of_uint int_digits Pos.of_uint_acc];
    match goal with |- context [digit_val ?c] => let d := eval vm_compute in (digit_val c) in change (digit_val c) with d end;
    cbv iota; rewrite <- IHu with (b := true) by auto; f_equal; lia.
Qed.
Lemma int_digits_uint u : forall b, b = true \/ u <> Nil ->
  int_digits b 0 (NilEmpty.string_of_uint u) = Some (Z.of_N (Pos.of_uint u)).
Proof.
  induction u; intros b H; simpl;
    [destruct H as [->|H]; [reflexivity|congruence]|..]; try (apply int_digits_acc; auto).
  apply IHu; auto.
Qed.
Lemma head_digit u : u <> Nil -> exists a s, NilEmpty.string_of_uint u = String a s /\
  Ascii.eqb a "-" = false /\ Ascii.eqb a "+" = false.
Proof. destruct u; intro H; [congruence|..]; simpl; eauto. Qed.

Lemma int_of_str_of_Z z : int_of_str (str_of_Z z) = Some z.
Proof.
  unfold int_of_str. rewrite strip_id.
  2: { apply sall_impl with (p := int_char); [|apply str_of_Z_chars]. intros a H. unfold not_ws.
       rewrite int_char_not_ws; auto. }
  rewrite <- (DecimalZ.of_to z) at 2. unfold str_of_Z.
  assert (G : forall u, u <> Nil -> NilZero.string_of_uint u = NilEmpty.string_of_uint u).
  { destruct u; auto. congruence. }
  destruct (Z.to_int z) as [u|u] eqn:E; unfold NilZero.string_of_int.
  - assert (N : u <> Nil).
    { destruct z; simpl in E; inversion E; subst; try discriminate; try apply DecimalPos.Unsigned.to_uint_nonnil. }
    rewrite G by auto. destruct (head_digit u N) as (a & s & Es & E1 & E2). rewrite Es, E1, E2, <- Es.
    rewrite int_digits_uint by auto. reflexivity.
  - assert (N : u <> Nil).
    { destruct z; simpl in E; inversion E; subst; try discriminate; try apply DecimalPos.Unsigned.to_uint_nonnil. }
    rewrite G by auto. simpl. rewrite int_digits_uint by auto. reflexivity.
Qed.
Lemma str_of_Z_inj a b : str_of_Z a = str_of_Z b -> a = b.
Proof. intro H. pose proof (int_of_str_of_Z a) as A. rewrite H, int_of_str_of_Z in A. congruence. Qed.

(** split *)
Definition not_char (c a : ascii) : bool := negb (Ascii.eqb a c).
Lemma split_on_none c s : sall (not_char c) s = true -> split_on c s = [s].
Proof.
  induction s as [|a s IH]; simpl; auto. unfold not_char at 1. destruct (Ascii.eqb a c); simpl; [discriminate|].
  intro H. rewrite IH; auto.
Qed.
Lemma split_on_cons c s t : sall (not_char c) s = true ->
  split_on c (s ++ String c t) = s :: split_on c t.
Proof.
  induction s as [|a s IH]; simpl.
  - rewrite Ascii.eqb_refl. auto.
  - unfold not_char at 1. destruct (Ascii.eqb a c); simpl; [discriminate|]. intro H. rewrite IH; auto.
Qed.
