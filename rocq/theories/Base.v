(** Shared vocabulary: bytes, machine words, small list helpers.
    Nothing here models repository code; it only fixes the representation used by the models. *)
From Coq Require Export Ascii String NArith ZArith Bool Lia List.
Export ListNotations.
Open Scope list_scope.

(** A byte string ([std::string], the characters of a [string_view], file contents ...). *)
Definition bytes := list ascii.

(** Literal byte strings. *)
Definition B (s : string) : bytes := list_ascii_of_string s.
Arguments B s%string_scope.

Definition chr (n : N) : ascii := ascii_of_N n.

Definition NL : ascii := chr 10.
Definition NUL : ascii := chr 0.
Definition TAB : ascii := chr 9.
Definition BSL : ascii := chr 92.
Definition LBRACE : ascii := chr 123.
Definition RBRACE : ascii := chr 125.

Fixpoint bytes_eqb (a b : bytes) : bool :=
  match a, b with
  | [], [] => true
  | x :: a', y :: b' => Ascii.eqb x y && bytes_eqb a' b'
  | _, _ => false
  end.

(** 2^64 and reduction of an unsigned 64-bit result. *)
Definition two64 : N := (2 ^ 64)%N.
Definition wrap64 (n : N) : N := (n mod two64)%N.

Lemma bytes_eqb_eq a b : bytes_eqb a b = true <-> a = b.
Proof.
  revert b; induction a as [|x a IH]; destruct b as [|y b]; cbn; try (split; congruence).
  rewrite andb_true_iff, Ascii.eqb_eq, IH. split; [intros [-> ->]; reflexivity | intros E; inversion E; auto].
Qed.

Lemma bytes_eqb_refl a : bytes_eqb a a = true.
Proof. apply bytes_eqb_eq; reflexivity. Qed.

Lemma bytes_eqb_neq a b : bytes_eqb a b = false <-> a <> b.
Proof.
  split; intros H.
  - intros ->. rewrite bytes_eqb_refl in H. discriminate.
  - destruct (bytes_eqb a b) eqn:E; [apply bytes_eqb_eq in E; contradiction | reflexivity].
Qed.

Lemma bytes_eqb_sym a b : bytes_eqb a b = bytes_eqb b a.
Proof.
  destruct (bytes_eqb a b) eqn:E.
  - apply bytes_eqb_eq in E; subst; symmetry; apply bytes_eqb_refl.
  - symmetry; apply bytes_eqb_neq. apply bytes_eqb_neq in E. congruence.
Qed.

Definition bytes_dec (a b : bytes) : {a = b} + {a <> b}.
Proof. destruct (bytes_eqb a b) eqn:E; [left; apply bytes_eqb_eq; exact E | right; apply bytes_eqb_neq; exact E]. Defined.

(** Keep arithmetic and character conversion folded under [cbn]/[simpl]. *)
#[global] Arguments N.add : simpl never.
#[global] Arguments N.mul : simpl never.
#[global] Arguments N.sub : simpl never.
#[global] Arguments N.modulo : simpl never.
#[global] Arguments N.div : simpl never.
#[global] Arguments N.pow : simpl never.
#[global] Arguments Z.add : simpl never.
#[global] Arguments Z.mul : simpl never.
#[global] Arguments Z.sub : simpl never.
#[global] Arguments Z.modulo : simpl never.
#[global] Arguments Z.div : simpl never.
#[global] Arguments Z.pow : simpl never.
#[global] Arguments ascii_of_N : simpl never.
#[global] Arguments N_of_ascii : simpl never.
