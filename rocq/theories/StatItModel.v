(** include/gul14/statistics.h:616-837, the overloads for two iterators.  A range is given by the
    elements [m] of the underlying container and two positions in it; position [length m] is the
    end of the container.  Going past it or reading there is UB.  Iterators are random-access:
    [std::distance] is the difference of the positions.  Not modelled: the iterator overload of
    remove_outliers (785-793); its call resolves to the overload at 469 for an rvalue of const type,
    which uses members the view does not have. *)
From Coq Require Import ZArith List Bool.
From Verif Require Import Base IntModel FloatModel StatModel.
Import ListNotations.

(** statistics.h:620-648 ContainerView, make_view *)
Record view := View { begin_ : nat; end_ : nat }.
(** statistics.h:641-644 size: the difference converted to size_t *)
Definition view_size (v : view) : nat :=
  Z.to_nat ((Z.of_nat (end_ v) - Z.of_nat (begin_ v)) mod 2 ^ 64)%Z.

(** A loop from [i] until [j] over the elements; [rest] are the elements from position [i] on.
    This is std::accumulate(cbegin, cend, a, f). *)
Fixpoint walk {E A} (rest : list E) (i j : nat) (f : A -> E -> A) (a : A) : outcome A :=
  if Nat.eqb i j then Ok a
  else match rest with
       | [] => UB
       | x :: rest' => walk rest' (S i) j f (f a x)
       end.
Definition fold_view {E A} (m : list E) (v : view) (f : A -> E -> A) (a : A) : outcome A :=
  walk (skipn (begin_ v) m) (begin_ v) (end_ v) f a.

Section Sums.
Context {E T D : Type} (ar : arithmetic T) (m : list E).

(** statistics.h:827-837 (through 598-614) accumulate *)
Definition accumulate_it {S} (b e : nat) (zero : S) (op : S -> D -> S) (acc : E -> D) : outcome S :=
  fold_view m (View b e) (fun accu el => op accu (acc el)) zero.
(** mean on a view: statistics.h:160-175 *)
Definition mean_view (v : view) (acc : E -> T) : outcome T :=
  bind (fold_view m v (fun accu el => a_add ar accu (acc el)) (a_zero ar)) (fun sum =>
  Ok (a_div ar sum (a_nat ar (view_size v)))).
(** statistics.h:666-675 mean *)
Definition mean_it (b e : nat) (acc : E -> T) : outcome T := mean_view (View b e) acc.
(** statistics.h:686-695 (through 198-213) rms *)
Definition rms_it (b e : nat) (acc : E -> T) : outcome T :=
  let v := View b e in
  bind (fold_view m v (fun accu el => a_add ar accu (a_sqr ar (acc el))) (a_zero ar)) (fun sum =>
  Ok (a_sqrt ar (a_div ar sum (a_nat ar (view_size v))))).
(** statistics.h:805-814 (through 545-572) standard_deviation: sigma and mean *)
Definition standard_deviation_it (b e : nat) (acc : E -> T) : outcome (T * T) :=
  let v := View b e in
  let len := view_size v in
  if Nat.eqb len 0 then Ok (a_nan ar, a_nan ar)
  else
    bind (mean_view v acc) (fun mean_val =>
    if Nat.eqb len 1 then Ok (a_nan ar, mean_val)
    else
      bind (fold_view m v (fun accu el => a_add ar accu (a_sqr ar (a_sub ar (acc el) mean_val))) (a_zero ar)) (fun sum =>
      Ok (a_sqrt ar (a_div ar sum (a_nat ar (view_size v - 1))), mean_val))).
End Sums.

(** statistics.h:726-772 (through 308-447) maximum, minimum, min_max *)
Section MinMax.
Context {E D : Type} (le eq : D -> D -> bool) (lo hi : D) (m : list E).
Definition maximum_it (b e : nat) (acc : E -> D) : outcome D :=
  fold_view m (View b e) (fun accu el => max_step le eq accu (acc el)) lo.
Definition minimum_it (b e : nat) (acc : E -> D) : outcome D :=
  fold_view m (View b e) (fun accu el => min_step le eq accu (acc el)) hi.
Definition min_max_it (b e : nat) (acc : E -> D) : outcome (D * D) :=
  fold_view m (View b e) (fun accu el =>
    let val := acc el in
    if eq val val then
      let out := if negb (le (fst accu) val) then (val, snd accu) else accu in
      if negb (le val (snd out)) then (fst out, val) else out
    else accu) (hi, lo).
End MinMax.

(** The copying loop of median, statistics.h:253-259: [left] slots of data_copy are not written
    yet, [out] are the written ones; writing past the last slot is UB. *)
Fixpoint copy_walk {E D} (rest : list E) (i j left : nat) (acc : E -> D) (out : list D) : outcome (list D) :=
  if Nat.eqb i j then Ok out
  else match rest, left with
       | x :: rest', S left' => copy_walk rest' (S i) j left' acc (out ++ [acc x])
       | _, _ => UB
       end.
(** statistics.h:706-715 (through 239-276) median ends with r, [cast] as in [median]; slots the
    loop does not reach hold the value-initialised [dflt] *)
Definition median_it {E D T} (ar : arithmetic T) (lt : D -> D -> bool) (cast : D -> T) (dflt : D) (m : list E)
    (b e : nat) (acc : E -> D) (r : outcome T) : Prop :=
  let v := View b e in
  let len := view_size v in
  if Nat.eqb len 0 then r = Ok (a_nan ar)
  else
    match copy_walk (skipn (begin_ v) m) (begin_ v) (end_ v) len acc [] with
    | Ok out =>
        let data := out ++ repeat dflt (len - length out) in
        exists l1 x, nth_element lt data (len / 2) l1 /\ nth_error l1 (len / 2) = Some x /\
        if Nat.eqb (len mod 2) 0 then
          exists l2 y, nth_element lt l1 (len / 2 - 1) l2 /\ nth_error l2 (len / 2 - 1) = Some y /\
          r = Ok (a_add ar (a_div ar (cast x) (a_two ar)) (a_div ar (cast y) (a_two ar)))
        else r = Ok (cast x)
    | Throw _ => False
    | UB => r = UB
    | Diverge => False
    end.
