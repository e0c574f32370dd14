(** Property C82: cat with arguments of different types, and the objects it makes from them *)
From Coq Require Import ZArith List Reals Lia Lra.
From Flocq Require Import Core.Core IEEE754.BinarySingleNaN.
From Verif Require StrProofs1 StrProps.
From Verif Require Import Base IntModel ToNumModel StrModel StrSpec CatModel ToNumSpec ToNumProofs ToNumProps CatSpec CatProofs.
Import ListNotations.
Local Open Scope Z_scope.

(** For every program that creates and destroys ConvertingStringView objects and calls cat, every
    call returns the texts of its arguments one after the other, if each of them can be used *)
Theorem C82_cat : forall (l : list act) (r : list str), acts [] l = Ok r <-> results [] l r.
Proof.
  intros l r. assert (R : rel [] []) by (split; [reflexivity|intros [|k] o E; discriminate]).
  pose proof (acts_ok l [] [] R) as H. split.
  - intros E. rewrite E in H. exact H.
  - intros E. destruct (acts [] l) as [r'| | |]; try contradiction; [f_equal; eapply results_fun; eassumption|].
    exfalso. eapply H; eassumption.
Qed.
(** and otherwise the program has undefined behaviour; it never throws *)
Theorem C82_undefined : forall l : list act, acts [] l = UB <-> ~ exists r, results [] l r.
Proof.
  intros l. assert (R : rel [] []) by (split; [reflexivity|intros [|k] o E; discriminate]).
  pose proof (acts_ok l [] [] R) as H. split.
  - intros E. rewrite E in H. intros [r Hr]. eapply H; eassumption.
  - intros N. destruct (acts [] l) as [r| | |]; try contradiction; [|reflexivity]. destruct N. exists r. exact H.
Qed.
(** A call with texts, characters and numbers is always defined *)
Theorem C82_always : forall args : list arg, (forall k, ~ In (Obj k) args) ->
  exists ts, Forall2 (denotes (fun _ => None)) args ts /\ cat_args [] args = Ok (concat ts).
Proof.
  intros args N. assert (R : rel [] []) by (split; [reflexivity|intros [|k] o E; discriminate]).
  assert (X : exists ts, Forall2 (denotes (usable [])) args ts /\ Forall2 (denotes (fun _ => None)) args ts).
  { induction args as [|a args IH]; [exists []; split; constructor|].
    destruct IH as (ts & F & G); [intros k Hk; apply (N k); right; exact Hk|].
    assert (T : exists t, denotes (usable []) a t /\ denotes (fun _ => None) a t).
    { destruct a; cbn [denotes]; try (eexists; split; reflexivity).
      - exists (up_to_nul s). split; apply up_to_nul_spec; reflexivity.
      - exists (to_string_f x). split; apply six_spec; reflexivity.
      - destruct (N k). left. reflexivity. }
    destruct T as (t & T1 & T2). exists (t :: ts). split; constructor; assumption. }
  destruct X as (ts & F & G). exists ts. split; [exact G|]. pose proof (cat_ok [] [] args R) as C.
  destruct (cat_args [] args) as [s| | |]; try contradiction.
  - destruct C as (us & U & ->). f_equal. f_equal. eapply Forall2_denotes_fun; eassumption.
  - destruct (C ts F).
Qed.
(** The printed number differs from the exact one by at most half a millionth *)
Theorem C82_precision : forall (x : binary_float 53 1024) (s : str), is_finite x = true -> six_decimals x s ->
  exists d1 d2, s = (if Bsign x then ["-"%char] else []) ++ d1 ++ ["."%char] ++ d2 /\ all_digits d1 /\ d1 <> [] /\ all_digits d2 /\
    length d2 = 6%nat /\ (Rabs (IZR (digits_value (d1 ++ d2)) / 1000000 - Rabs (B2R x)) <= / 2 / 1000000)%R.
Proof.
  intros x s Hf H. assert (X : exists d1 d2, s = (if Bsign x then ["-"%char] else []) ++ d1 ++ ["."%char] ++ d2 /\
         d1 = decimal_of (digits_value d1) /\ all_digits d1 /\ all_digits d2 /\ length d2 = 6%nat /\
         digits_value (d1 ++ d2) = ZnearestE (Rabs (B2R x) * 1000000)%R) by (destruct x; try discriminate; exact H).
  destruct X as (d1 & d2 & -> & E & A1 & A2 & L & V). exists d1, d2. split; [reflexivity|]. split; [exact A1|]. split.
  { intros ->. revert E. vm_compute. discriminate. }
  split; [exact A2|]. split; [exact L|]. rewrite V. pose proof (Znearest_half (fun n => negb (Z.even n)) (Rabs (B2R x) * 1000000)) as B.
  apply Rabs_def2b in B || apply Rabs_le_inv in B. apply Rabs_le. lra.
Qed.
(** Integers printed with a separator between them can be split and read back *)
Theorem C82_numbers : forall (t : ity) (c : ascii) (zs : list Z),
  is_ity t -> sgn t = true -> zs <> [] -> (forall z, In z zs -> - 2 ^ (wid t - 1) <= z <= 2 ^ (wid t - 1) - 1) ->
  ~ all_digits [c] -> c <> "-"%char ->
  exists s parts, cat_args [] (separated c zs) = Ok s /\ split s [c] = Ok parts /\
    map (to_number_signed t) parts = map (fun z => Ok (Some z)) zs.
Proof.
  intros t c zs Ht Hs NE Hr Hd Hm. exists (join (map decimal_of zs) [c]), (map decimal_of zs). split; [|split].
  - destruct (C82_always (separated c zs)) as (ts & F & ->).
    { clear. intros k. induction zs as [|z [|z' zs] IH]; cbn [separated]; [intros []|intros [H|[]]; discriminate|].
      intros [H|[H|H]]; try discriminate. exact (IH H). }
    f_equal. revert ts F. clear. induction zs as [|z [|z' zs] IH]; intros ts F; cbn [separated] in F.
    + inversion F. reflexivity.
    + inversion F as [|? t1 ? ? D1 F1]; subst. inversion F1; subst. cbn [denotes] in D1. subst. cbn. apply app_nil_r.
    + inversion F as [|? t1 ? ? D1 F1]; subst. inversion F1 as [|? t2 ? ? D2 F2]; subst. cbn [denotes] in D1, D2. subst.
      cbn [concat]. rewrite (IH _ F2), !StrProofs1.join_intercalate. reflexivity.
  - apply StrProps.C06_split_join.
    + destruct zs; [congruence|discriminate].
    + intros p Hp Hc. apply in_map_iff in Hp. destruct Hp as (z & <- & _). unfold decimal_of in Hc.
      assert (Y : forall n, 0 <= n -> ~ In c (decimal_of_nonneg n)).
      { intros n Hn Hi. destruct (decimal_of_nonneg_ok n Hn) as (_ & A & _). apply Hd. unfold all_digits in *. intros d [<-|[]]. apply A. exact Hi. }
      destruct (Z.ltb_spec z 0); [|eapply Y; eassumption]. destruct Hc as [Hc|Hc]; [congruence|]. eapply Y; [|exact Hc]. lia.
  - rewrite map_map. apply map_ext_in. intros z Hz. apply C24_signed; auto.
Qed.
(** Finding: a copy of an object that was made from a number or a character cannot be used when the
    original is gone, although a copy of one made from a text can *)
Theorem C82_copy_finding : forall a : arg, (forall k, a <> Obj k) ->
  let program := [New a; New (Obj 0); End_of 0; Cat [Obj 1]] in
  match a with
  | Text _ | CString _ => exists r, acts [] program = Ok [r]
  | _ => acts [] program = UB
  end.
Proof. intros a N program. destruct a; try (eexists; reflexivity); try reflexivity. destruct (N k eq_refl). Qed.
Example C82_example :
  cat_args [] [Text !"x = "; Double (@B754_finite 53 1024 true 5629499534213120 (-51) eq_refl); CString !"m, "; Int (-7); Char "!"] = Ok !"x = -2.500000m, -7!" /\
  acts [] [New (Int 5); New (Obj 0); New (Text !"ab"); Cat [Obj 1; Obj 2; Char "c"]; End_of 2; Cat [Obj 1; Obj 0; Char "."; Int 30]] = Ok [!"5abc"; !"55.30"] /\
  to_string_f (@B754_finite 53 1024 false 7205759403792794 (-56) eq_refl) = !"0.100000" /\
  acts [] [New (Text !"ab"); End_of 0; Cat [Obj 0]] = UB /\
  is_ity (IT true 32) /\ ~ all_digits [","%char].
Proof.
  repeat (split; [vm_compute; reflexivity|]). split; [unfold is_ity; cbn; tauto|].
  intros H. specialize (H ","%char (or_introl eq_refl)). vm_compute in H. destruct H as [H1 H2]. lia || (apply H1; reflexivity) || discriminate.
Qed.
Print Assumptions C82_cat.
Print Assumptions C82_numbers.
