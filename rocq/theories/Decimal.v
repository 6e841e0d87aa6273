(** Decimal and hexadecimal notation of numbers, as produced by iostreams and cppformat. The algorithms of
    src/format are modelled separately (FmtModel); here is the notation itself with its characterisation. *)
From Verif Require Import Base.
Open Scope N_scope.

(** A digit in a base up to 16. *)
Definition digit (d : N) : ascii := if d <? 10 then chr (48 + d) else chr (87 + d).

Fixpoint notation_go (base : N) (fuel : nat) (n : N) (acc : bytes) : bytes :=
  match fuel with
  | O => acc
  | S fuel' =>
      let acc' := digit (n mod base) :: acc in
      if n <? base then acc' else notation_go base fuel' (n / base) acc'
  end.

(** Enough fuel: the number of binary digits. *)
Definition notation (base n : N) : bytes := notation_go base (S (N.to_nat (N.log2 n))) n [].

Definition dec (n : N) : bytes := notation 10 n.
Definition hex (n : N) : bytes := notation 16 n.

(** Signed numbers. *)
Definition sdec (z : Z) : bytes := match z with Z.neg p => "-"%char :: dec (N.pos p) | _ => dec (Z.to_N z) end.

(** What a notation means: each digit appended multiplies by the base. *)
Definition value_of (base : N) (s : bytes) : N :=
  fold_left (fun n c => base * n + (if N_of_ascii c <? 58 then N_of_ascii c - 48 else N_of_ascii c - 87)) s 0.

Lemma digit_value d : d < 16 -> (if N_of_ascii (digit d) <? 58 then N_of_ascii (digit d) - 48 else N_of_ascii (digit d) - 87) = d.
Proof.
  intros H. unfold digit, chr. destruct (N.ltb_spec d 10).
  - rewrite N_ascii_embedding by lia. destruct (N.ltb_spec (48 + d) 58); lia.
  - rewrite N_ascii_embedding by lia. destruct (N.ltb_spec (87 + d) 58); lia.
Qed.

Lemma notation_go_app base fuel : forall n acc, notation_go base fuel n acc = notation_go base fuel n [] ++ acc.
Proof.
  induction fuel as [|fuel IH]; intros n acc; cbn [notation_go]; [reflexivity|].
  destruct (n <? base); [reflexivity|]. rewrite IH, (IH _ [_]), <- app_assoc. reflexivity.
Qed.

Lemma notation_go_value base fuel : 2 <= base <= 16 -> forall n, n < 2 ^ N.of_nat fuel -> (0 < fuel)%nat ->
  value_of base (notation_go base fuel n []) = n.
Proof.
  intros HB. induction fuel as [|fuel IH]; intros n Hn Hf; [lia|]. cbn [notation_go].
  destruct (N.ltb_spec n base) as [Hl|Hl].
  - unfold value_of; cbn [fold_left]. rewrite digit_value; [|apply N.lt_le_trans with base; [apply N.mod_lt; lia|lia]].
    rewrite N.mod_small by exact Hl. lia.
  - rewrite notation_go_app. unfold value_of. rewrite fold_left_app. fold (value_of base (notation_go base fuel (n / base) [])).
    assert (Hq : n / base < 2 ^ N.of_nat fuel).
    { apply N.div_lt_upper_bound; [lia|]. rewrite Nat2N.inj_succ, N.pow_succ_r' in Hn. nia. }
    rewrite IH; [|exact Hq|].
    + cbn [fold_left]. rewrite digit_value; [|apply N.lt_le_trans with base; [apply N.mod_lt; lia|lia]].
      rewrite (N.div_mod n base) at 3 by lia. lia.
    + destruct fuel; [|lia]. cbn in Hn. change (2 ^ N.of_nat 1) with 2 in Hn. lia.
Qed.

Lemma notation_fuel n : n < 2 ^ N.of_nat (S (N.to_nat (N.log2 n))).
Proof.
  rewrite Nat2N.inj_succ, N2Nat.id. destruct (N.eq_dec n 0) as [->|H]; [reflexivity|].
  apply N.log2_spec. lia.
Qed.

Lemma notation_value base n : 2 <= base <= 16 -> value_of base (notation base n) = n.
Proof. intros H. apply notation_go_value; [exact H|apply notation_fuel|lia]. Qed.

Lemma dec_value n : value_of 10 (dec n) = n.
Proof. apply notation_value; lia. Qed.
Lemma hex_value n : value_of 16 (hex n) = n.
Proof. apply notation_value; lia. Qed.

Lemma notation_inj base a b : 2 <= base <= 16 -> notation base a = notation base b -> a = b.
Proof. intros H E. rewrite <- (notation_value base a H), <- (notation_value base b H), E. reflexivity. Qed.

Lemma notation_digits base n : 2 <= base <= 16 -> Forall (fun c => exists d, d < base /\ c = digit d) (notation base n).
Proof.
  intros HB. unfold notation. generalize (S (N.to_nat (N.log2 n))) as fuel. intros fuel. revert n.
  induction fuel as [|fuel IH]; intros n; cbn [notation_go]; [constructor|].
  assert (D : Forall (fun c => exists d, d < base /\ c = digit d) [digit (n mod base)]).
  { constructor; [|constructor]. exists (n mod base). split; [apply N.mod_lt; lia|reflexivity]. }
  destruct (n <? base); [exact D|]. rewrite notation_go_app. apply Forall_app. split; [apply IH|exact D].
Qed.

Lemma notation_nonempty base n : notation base n <> [].
Proof.
  unfold notation. cbn [notation_go]. destruct (n <? base); [discriminate|]. rewrite notation_go_app.
  intros E. apply app_eq_nil in E as [_ E]. discriminate.
Qed.

(** No superfluous zero in front. *)
Lemma notation_head base n : 2 <= base <= 16 -> n <> 0 -> exists d s, 0 < d < base /\ notation base n = digit d :: s.
Proof.
  intros HB. unfold notation. assert (F := notation_fuel n). revert F.
  generalize (S (N.to_nat (N.log2 n))) as fuel. intros fuel. revert n.
  induction fuel as [|fuel IH]; intros n F Hn; [change (2 ^ N.of_nat 0) with 1 in F; lia|]. cbn [notation_go].
  destruct (N.ltb_spec n base) as [Hl|Hl].
  - exists n, []. rewrite N.mod_small by exact Hl. split; [lia|reflexivity].
  - rewrite notation_go_app. rewrite Nat2N.inj_succ, N.pow_succ_r' in F.
    destruct (IH (n / base)) as (d & s & Hd & E).
    + apply N.div_lt_upper_bound; [lia|nia].
    + intros E. apply N.div_small_iff in E; lia.
    + rewrite E. exists d, (s ++ [digit (n mod base)]). split; [exact Hd|reflexivity].
Qed.
