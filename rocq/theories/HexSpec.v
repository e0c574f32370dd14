(** Vocabulary of the hexdump property. *)
From Verif Require Import Base StrSpec HexModel.
Open Scope Z_scope.

(** The [n] characters of [s] from position [p]. *)
Definition sub (p n : nat) (s : str) : str := firstn n (skipn p s).

(** [s] is the number [v] written with exactly [n] lower-case hexadecimal digits. *)
Definition hex_field (n : nat) (v : Z) (s : str) : Prop :=
  length s = n /\ denotes_hex s v /\ (forall c, In c s -> lowercase_hex_digit c).

(** Values of an unsigned integer type of [w] bytes. *)
Definition fits (w : nat) (v : Z) : Prop := 0 <= v < 2 ^ (8 * Z.of_nat w).

(** Number of elements shown: at most 16000. *)
Definition shown (data : list Z) : nat := Nat.min (length data) (16 * 1000).
(** Number of dump lines: one per started group of 16, at least one. *)
Definition line_count (data : list Z) : nat := Nat.max 1 ((shown data + 15) / 16).

(** Widths, for elements of [w] bytes and a prompt of [p] characters: a complete line and
    the position of the first element's digits in its line. *)
Definition data_column (p : nat) : nat := p + 8.
Definition text_column (p w : nat) : nat := data_column p + 16 * (2 * w + 1) + 1.
Definition line_width (p w : nat) : nat :=
  data_column p + 16 * (2 * w + 1) + (if Nat.eqb w 1 then 17 else 0) + 1.

(** Number of newline characters in a text. *)
Definition newlines (s : str) : nat := count_occ ascii_dec s (chr 10).

(** What the text column shows for a byte. *)
Definition printed (v : Z) : ascii := if (32 <=? v) && (v <=? 126) then chr v else ".".

(** What a forwarder stands for: the data and prompt it was created with.  Copying and
    moving pass them on; what a moved-from forwarder stands for is unspecified. *)
Definition contents : Type := nat -> option (list Z * str).
Definition cset (c : contents) (x : nat) (v : option (list Z * str)) : contents :=
  fun z => if Nat.eqb z x then v else c z.
Definition effect (c : contents) (o : fop) : contents :=
  match o with
  | FCreate x _ d p => cset c x (Some (d, p))
  | FCopyCtor x y | FCopyAssign x y => if Nat.eqb x y then c else cset c x (c y)
  | FMoveCtor x y | FMoveAssign x y => if Nat.eqb x y then c else cset (cset c y None) x (c y)
  | FDestroy x => cset c x None
  end.
Fixpoint effects (c : contents) (ops : list fop) : contents :=
  match ops with
  | [] => c
  | o :: r => effects (effect c o) r
  end.
Definition no_forwarders : fwds := fun _ => None.
Definition no_contents : contents := fun _ => None.
