(** C27, continued: numbers far outside of the range *)
From Coq Require Import Reals Psatz.
From Flocq Require Import Core.Core IEEE754.BinarySingleNaN.
From Verif Require Import Base FloatModel ToNumModel ToNumSpec ToNumProofs3 ToNumProofs4 ToNumProps.
Local Open Scope R_scope.

(** Numbers of at least 10^8192 become infinity and nonzero numbers below 10^-8191 become zero,
    with the sign of the text. *)
Theorem C27_saturates d1 d2 ex s : decimal_number d1 d2 ex s -> (zlen s <= 2 ^ 29)%Z -> (Z.abs ex <= 2 ^ 29)%Z ->
  (rpow10 8192 <= number_value d1 d2 ex ->
     (to_number_f32 s = Ok (Some (B754_infinity false)) /\ to_number_f32 ("-"%char :: s) = Ok (Some (B754_infinity true))) /\
     (to_number_f64 s = Ok (Some (B754_infinity false)) /\ to_number_f64 ("-"%char :: s) = Ok (Some (B754_infinity true))) /\
     (to_number_f80 s = Ok (Some (B754_infinity false)) /\ to_number_f80 ("-"%char :: s) = Ok (Some (B754_infinity true)))) /\
  (0 < number_value d1 d2 ex < rpow10 (-8191) ->
     (to_number_f32 s = Ok (Some (B754_zero false)) /\ to_number_f32 ("-"%char :: s) = Ok (Some (B754_zero true))) /\
     (to_number_f64 s = Ok (Some (B754_zero false)) /\ to_number_f64 ("-"%char :: s) = Ok (Some (B754_zero true))) /\
     (to_number_f80 s = Ok (Some (B754_zero false)) /\ to_number_f80 ("-"%char :: s) = Ok (Some (B754_zero true)))).
Proof.
  intros Hs Hl Hex.
  destruct (saturate 24 128 53 1024 ltac:(lia) ltac:(lia) ltac:(lia) ltac:(lia) ltac:(lia) d1 d2 ex s Hs Hl Hex) as [A1 A2].
  destruct (saturate 53 1024 53 1024 ltac:(lia) ltac:(lia) ltac:(lia) ltac:(lia) ltac:(lia) d1 d2 ex s Hs Hl Hex) as [B1 B2].
  destruct (saturate 64 16384 64 16384 ltac:(lia) ltac:(lia) ltac:(lia) ltac:(lia) ltac:(lia) d1 d2 ex s Hs Hl Hex) as [C1 C2].
  split; intros HV.
  - split; [|split]; [exact (neg_case _ _ _ _ _ _ _ _ _ _ _ _ _ Hs (A1 HV))|exact (neg_case _ _ _ _ _ _ _ _ _ _ _ _ _ Hs (B1 HV))|
      exact (neg_case _ _ _ _ _ _ _ _ _ _ _ _ _ Hs (C1 HV))].
  - split; [|split]; [exact (neg_case _ _ _ _ _ _ _ _ _ _ _ _ _ Hs (A2 HV))|exact (neg_case _ _ _ _ _ _ _ _ _ _ _ _ _ Hs (B2 HV))|
      exact (neg_case _ _ _ _ _ _ _ _ _ _ _ _ _ Hs (C2 HV))].
Qed.
Example C27_saturates_example :
  to_number_f80 (!"12e99999") = Ok (Some (B754_infinity false)) /\ to_number_f64 (!"-12e-99999") = Ok (Some (B754_zero true)).
Proof. split; vm_compute; reflexivity. Qed.
