(** C56: std::hash of optional *)
From Coq Require Import ZArith List.
From Verif Require Import Base OptModel OptSpec OptProofs OptHashModel.
Import ListNotations.

(** The hash is that of the value, or 0 without a value ... *)
Theorem C56_hash {A} (h : A -> Z) (x : opt) : sound x ->
  opt_hash h x = Ok (match observe x with Some a => h a | None => 0%Z end).
Proof. intros H. apply sound_cases in H. destruct H as [(a & ->)| ->]; reflexivity. Qed.
(** ... so that optionals that compare equal have equal hashes, if this is so for the values *)
Theorem C56_hash_equal {A} (o : rel A) (h : A -> Z) (x y : opt) :
  (forall a b, r_eq o a b = true -> h a = h b) -> sound x -> sound y ->
  opt_eq o x y = Ok true -> exists n, opt_hash h x = Ok n /\ opt_hash h y = Ok n.
Proof.
  intros Hh X Y E. rewrite (C56_hash h x X), (C56_hash h y Y). eexists. split; [reflexivity|]. f_equal.
  apply sound_cases in X. apply sound_cases in Y.
  destruct X as [(a & ->)| ->], Y as [(b & ->)| ->]; cbn in E |- *; try discriminate; [|reflexivity].
  injection E as E. symmetry. apply Hh. exact E.
Qed.
(** An optional reference has the hash of the object it refers to, at present *)
Theorem C56_hash_reference {A} (h : A -> Z) (m : list A) (k : nat) (a : A) : nth_error m k = Some a ->
  ref_hash h m (ref_to k) = Ok (h a) /\ ref_hash h m ref_null = Ok 0%Z /\
  opt_hash h (Opt true (Live a)) = ref_hash h m (ref_to k).
Proof. intros H. cbn. rewrite H. repeat split. Qed.
(** Finding: the hash does not tell an empty optional from one that holds a value with hash 0 (with
    libstdc++ the number 0) *)
Theorem C56_hash_empty_finding : exists x y : @opt Z, sound x /\ sound y /\ observe x = None /\ observe y = Some 0%Z /\
  opt_hash (fun z => z) x = opt_hash (fun z => z) y.
Proof.
  exists (Opt false Raw), (Opt true (Live 0%Z)). split; [|split; [|repeat split]]; unfold sound; cbn.
  - split; [discriminate|]. intros (? & H). discriminate.
  - split; [intros _; eexists; reflexivity|reflexivity].
Qed.
Example C56_hash_example : sound (Opt true (Live 42%Z)) /\ opt_hash (fun z => z + 1)%Z (Opt true (Live 42%Z)) = Ok 43%Z /\
  ref_hash (fun z => z + 1)%Z [7; 8]%Z (ref_to 1) = Ok 9%Z.
Proof. split; [|split; reflexivity]. unfold sound. cbn. split; [intros _; eexists; reflexivity|reflexivity]. Qed.
Print Assumptions C56_hash_equal.
