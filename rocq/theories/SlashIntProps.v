(** C90: a slash between two plain ints is a division. *)
From Verif Require Import Base IntModel DateModel DateSpec SlashModel SlashSpec.
Local Open Scope Z_scope.

(** No date results, but the quotient without its fractional part: the largest number of times that
    |y| fits into |x|, with the sign of x / y *)
Theorem C90_plain_ints x y : is_int x -> is_int y -> y <> 0 -> ~ (x = - 2 ^ 31 /\ y = -1) ->
  exists q, slash (VInt x) (VInt y) = Some (Ok (VInt q)) /\ Z.abs q * Z.abs y <= Z.abs x < (Z.abs q + 1) * Z.abs y /\ 0 <= q * (x * y).
Proof.
  intros X Y N NO. exists (x ÷ y). 
  assert (A : Z.abs (x ÷ y) = Z.abs x / Z.abs y) by (rewrite <- Z.quot_abs by exact N; apply Z.quot_div_nonneg; lia).
  pose proof (Z.div_mod (Z.abs x) (Z.abs y) ltac:(lia)) as DM. pose proof (Z.mod_pos_bound (Z.abs x) (Z.abs y) ltac:(lia)) as MB.
  assert (B : Z.abs (x ÷ y) * Z.abs y <= Z.abs x < (Z.abs (x ÷ y) + 1) * Z.abs y) by (rewrite A; lia).
  assert (SG : 0 <= x ÷ y * (x * y)).
  { pose proof (Z.quot_rem x y N) as QR. pose proof (Z.rem_bound_abs x y N) as RB.
    destruct (Z.eq_dec (x ÷ y) 0) as [->|NZ]; [lia|].
    destruct (Z_lt_le_dec x 0); destruct (Z_lt_le_dec y 0); 
      [assert (0 <= x ÷ y) by (rewrite <- Z.quot_opp_opp by exact N; apply Z.quot_pos; lia)
      |assert (x ÷ y <= 0) by (replace x with (- - x) by lia; rewrite Z.quot_opp_l by exact N; assert (0 <= - x ÷ y) by (apply Z.quot_pos; lia); lia)
      |assert (x ÷ y <= 0) by (replace y with (- - y) by lia; rewrite Z.quot_opp_r by lia; assert (0 <= x ÷ - y) by (apply Z.quot_pos; lia); lia)
      |assert (0 <= x ÷ y) by (apply Z.quot_pos; lia)]; nia. }
  split; [|split; [exact B|exact SG]].
  cbn [slash]. unfold int_div. rewrite (proj2 (Z.eqb_neq y 0) N).
  assert (R : int_ (x ÷ y) = Ok (x ÷ y)).
  { unfold is_int in X, Y. unfold int_, arith, in_rangeb. set (q := x ÷ y) in *. clearbody q.
    assert (NX : Z.abs q <= Z.abs x) by nia. assert (IQ : -2147483648 <= q <= 2147483647).
    { destruct (Z.eq_dec x (-2147483648)) as [->|NM]; [|lia]. destruct (Z.eq_dec y (-1)) as [->|NY]; [exfalso; apply NO; split; reflexivity|].
      destruct (Z_lt_le_dec y 0); [assert (2 <= Z.abs y) by lia; nia|]. assert (q <= 0) by nia. lia. }
    cbn. rewrite (proj2 (Z.leb_le _ _)), (proj2 (Z.leb_le _ _)) by lia. reflexivity. }
  rewrite R. reflexivity.
Qed.
(** Dividing by zero is undefined, and so is the one quotient that is no int. *)
Theorem C90_plain_ints_undefined x : slash (VInt x) (VInt 0) = Some UB /\ slash (VInt (- 2 ^ 31)) (VInt (-1)) = Some UB.
Proof. split; reflexivity. Qed.
Example C90_plain_ints_example : is_int (-2015) /\ is_int 4 /\ slash (VInt (-2015)) (VInt 4) = Some (Ok (VInt (-503))).
Proof. unfold is_int. split; [lia|]. split; [lia|]. reflexivity. Qed.
Print Assumptions C90_plain_ints.
