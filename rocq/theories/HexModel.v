(** Model of include/gul14/hexdump.h.

    Element values are integers ([Z]); [w] is sizeof the element type.  An output stream
    carries its text and the three format settings the code touches: base, fill character
    and field width.  Simplifications: right adjustment, no showbase/uppercase flags, no
    digit grouping (the defaults of a stream and of the classic locale), and writing never
    fails. *)
From Verif Require Import Base.
Open Scope outcome_scope.
Open Scope Z_scope.

(** ** Formatted output of the standard library, as used by the code *)
Record ostr : Type := OS { text : str; hex : bool; fill : ascii; width : nat }.

(** A default-constructed std::stringstream: decimal, fill ' ', width 0. *)
Definition new_stream : ostr := OS [] false " " 0.

(** dest << std::hex, std::setfill(c), std::setw(n). *)
Definition set_hex (o : ostr) : ostr := OS (text o) true (fill o) (width o).
Definition set_fill (c : ascii) (o : ostr) : ostr := OS (text o) (hex o) c (width o).
Definition set_width (n : nat) (o : ostr) : ostr := OS (text o) (hex o) (fill o) n.

(** Every formatted output pads on the left to the field width and resets the width. *)
Definition put (s : str) (o : ostr) : ostr :=
  OS (text o ++ repeat (fill o) (width o - length s) ++ s) (hex o) (fill o) 0.

(** The digits of a non-negative integer in base [b] (lower case), least significant
    digit last; [n] is fuel. *)
Definition digit (d : Z) : ascii := chr (if d <? 10 then 48 + d else 87 + d).
Fixpoint digits (b : Z) (n : nat) (v : Z) : str :=
  match n with
  | O => []
  | S n' => (if v / b =? 0 then [] else digits b n' (v / b)) ++ [digit (v mod b)]
  end.
(** dest << v for an unsigned integer v. *)
Definition put_int (v : Z) (o : ostr) : ostr :=
  put (digits (if hex o then 16 else 10) (S (Z.to_nat (Z.log2 v))) v) o.

(** std::isprint in the classic locale. *)
Definition isprint (c : Z) : bool := (32 <=? c) && (c <=? 126).

(** ** hexdump.h:122-175 detail::hexdump_stream *)

(** Line 125. *)
Definition maxelem : Z := 16000.

(** Lines 143-158: the inner loop, [j] iterations to go; [it] are the elements from the
    iterator to [end].  Result: the stream and the advanced iterator. *)
Fixpoint dump_cells (w : nat) (j : nat) (it : list Z) (o : ostr) : ostr * list Z :=
  match j with
  | O => (o, it)
  | S j' =>
      match it with
      | v :: it' =>
          let ch := v mod 2 ^ (8 * Z.of_nat w) in
          dump_cells w j' it' (put !" " (put_int ch (set_width (2 * w) o)))
      | [] =>
          if negb (Nat.eqb (2 * w) 2) then (o, it)
          else dump_cells w j' it (put (repeat " "%char (2 * w + 1)) o)
      end
  end.

(** Lines 163-166: the text column, from the beginning of the line. *)
Fixpoint dump_text (j : nat) (line : list Z) (o : ostr) : ostr :=
  match j with
  | O => o
  | S j' =>
      match line with
      | v :: line' =>
          let c := v mod 256 in
          dump_text j' line' (put [chr (if isprint c then c else 46)] o)
      | [] => o
      end
  end.

(** Lines 140-169: one pass through the body of the outer loop. *)
Definition dump_line (w : nat) (prompt : str) (i : Z) (it : list Z) (o : ostr)
  : ostr * list Z :=
  let indent := repeat " "%char (length prompt) in
  let o := put (if i =? 0 then prompt else indent) o in
  let o := put !": " (put_int i (set_width 6 o)) in
  let '(o, it') := dump_cells w 16 it o in
  let o := if Nat.eqb (2 * w) 2 then dump_text 16 it (put !" " o) else o in
  (put [chr 10] o, it').

(** Lines 139-170: the outer loop; [n] is fuel. *)
Fixpoint dump_loop (w : nat) (prompt : str) (n : nat) (i : Z) (it : list Z) (o : ostr)
  : outcome (ostr * list Z) :=
  if (negb (match it with [] => true | _ => false end) && (i <? maxelem)) || (i =? 0)
  then
    match n with
    | O => Diverge
    | S n' =>
        let '(o', it') := dump_line w prompt i it o in
        dump_loop w prompt n' (i + 16) it' o'
    end
  else Ok (o, it).

(** Lines 122-175. *)
Definition hexdump_stream (o : ostr) (w : nat) (data : list Z) (prompt : str)
  : outcome ostr :=
  let o := set_fill "0" (set_hex o) in
  '(o, it) <- dump_loop w prompt 1000 0 data o ;;
  match it with
  | [] => Ok o
  | _ =>
      let indent := repeat " "%char (length prompt) in
      Ok (put (!"[output truncated...]" ++ [chr 10]) (put indent o))
  end.

(** ** hexdump.h:210-241 hexdump(begin, end, prompt) and hexdump(cont, prompt) *)
Definition hexdump (w : nat) (data : list Z) (prompt : str) : outcome str :=
  o <- hexdump_stream new_stream w data prompt ;; Ok (text o).

(** ** hexdump.h:257-379 HexdumpParameterForward, holding a container

    Forwarder objects are named by numbers.  An iterator is a position in the container
    stored in a named forwarder; it can be used as long as that forwarder is alive. *)
Record iter : Type := It { owner : nat; pos : nat }.

(** hexdump.h:259-266: the members. *)
Record fwd : Type := Fwd { begin_ : iter; end_ : iter; fprompt : str; cont_ : list Z }.

Definition fwds : Type := nat -> option fwd.
Definition fset (m : fwds) (x : nat) (f : option fwd) : fwds :=
  fun z => if Nat.eqb z x then f else m z.

(** hexdump.h:374-378 regenerate_iterators(), for the forwarder named [x]. *)
Definition regenerate (x : nat) (f : fwd) : fwd :=
  Fwd (It x 0) (It x (length (cont_ f))) (fprompt f) (cont_ f).

(** hexdump.h:283-292 and 457-463: hexdump_stream(std::move(cont), prompt) creates the
    forwarder [x] with begin_ and end_ at the start of the temporary [tmp] first. *)
Definition fwd_create (m : fwds) (x tmp : nat) (cont : list Z) (prompt : str) : fwds :=
  fset m x (Some (regenerate x (Fwd (It tmp 0) (It tmp 0) prompt cont))).

(** hexdump.h:313-325 copy assignment from the live forwarder [other] named [y]. *)
Definition fwd_copy_assign (m : fwds) (x y : nat) (other : fwd) : fwds :=
  if Nat.eqb x y then m
  else fset m x (Some (regenerate x
         (Fwd (begin_ other) (end_ other) (fprompt other) (cont_ other)))).

(** hexdump.h:331-343 move assignment; the source keeps its iterators, and its prompt and
    container are left empty. *)
Definition fwd_move_assign (m : fwds) (x y : nat) (other : fwd) : fwds :=
  if Nat.eqb x y then m
  else
    let m := fset m y (Some (Fwd (begin_ other) (end_ other) [] [])) in
    fset m x (Some (regenerate x
         (Fwd (begin_ other) (end_ other) (fprompt other) (cont_ other)))).

(** Operations of a program on forwarders; the copy and move constructors (lines 298-307)
    are the assignments applied to a new object. *)
Inductive fop : Type :=
| FCreate (x tmp : nat) (cont : list Z) (prompt : str)
| FCopyCtor (x y : nat)
| FMoveCtor (x y : nat)
| FCopyAssign (x y : nat)
| FMoveAssign (x y : nat)
| FDestroy (x : nat).

(** [None]: not a program (a dead or duplicate name). *)
Definition fstep (m : fwds) (o : fop) : option fwds :=
  match o with
  | FCreate x tmp c p => match m x with None => Some (fwd_create m x tmp c p) | _ => None end
  | FCopyCtor x y =>
      match m x, m y with None, Some f => Some (fwd_copy_assign m x y f) | _, _ => None end
  | FMoveCtor x y =>
      match m x, m y with None, Some f => Some (fwd_move_assign m x y f) | _, _ => None end
  | FCopyAssign x y =>
      match m x, m y with Some _, Some f => Some (fwd_copy_assign m x y f) | _, _ => None end
  | FMoveAssign x y =>
      match m x, m y with Some _, Some f => Some (fwd_move_assign m x y f) | _, _ => None end
  | FDestroy x => match m x with Some _ => Some (fset m x None) | None => None end
  end.
Fixpoint fexec (m : fwds) (ops : list fop) : option fwds :=
  match ops with
  | [] => Some m
  | o :: r => match fstep m o with Some m' => fexec m' r | None => None end
  end.

(** The elements between two iterators: both must designate positions of one container
    that still exists. *)
Definition range (m : fwds) (b e : iter) : outcome (list Z) :=
  if Nat.eqb (owner b) (owner e) then
    match m (owner b) with
    | Some f =>
        if Nat.leb (pos b) (pos e) && Nat.leb (pos e) (length (cont_ f))
        then Ok (firstn (pos e - pos b) (skipn (pos b) (cont_ f)))
        else UB
    | None => UB
    end
  else UB.

(** hexdump.h:354-358 operator<<(os, hdp) for the forwarder [x]. *)
Definition fwd_print (o : ostr) (w : nat) (m : fwds) (x : nat) : outcome ostr :=
  match m x with
  | Some f => data <- range m (begin_ f) (end_ f) ;; hexdump_stream o w data (fprompt f)
  | None => UB
  end.
