(** Model of include/gul14/cat.h and src/cat.cc with the ConvertingStringView objects that the
    arguments are converted to.  StrModel.v has the concatenation of the texts; here it is seen
    where these texts are stored. *)
From Coq Require Import ZArith.
From Flocq Require Import IEEE754.BinarySingleNaN.
From Verif Require Import Base FmtModel.
Local Open Scope Z_scope.
Local Open Scope outcome_scope.

(** std::to_string for integers (standard library contract: printf "%d", "%lu", ... ) *)
Definition to_string (z : Z) : str := dec z.

(** std::to_string for float (converted to double, which is exact) and double: printf "%f", that
    is six decimals, rounded from the exact binary value, ties to even; [millionths] is the number
    of millionths that is printed.  The sign of NaN is not modelled. *)
Definition millionths (m : positive) (e : Z) : Z :=
  if 0 <=? e then Z.pos m * 2 ^ e * 1000000
  else
    let den := 2 ^ (- e) in
    let q := Z.pos m * 1000000 / den in
    let r := Z.pos m * 1000000 mod den in
    if 2 * r <? den then q else if den <? 2 * r then q + 1 else if Z.even q then q else q + 1.
Definition fixed (n : Z) : str := dec (n / 1000000) ++ "."%char :: put_right "0" 6 (n mod 1000000).
Definition sign_of (s : bool) : str := if s then ["-"%char] else [].
Definition to_string_f {prec emax} (x : binary_float prec emax) : str :=
  match x with
  | B754_zero s => sign_of s ++ fixed 0
  | B754_infinity s => sign_of s ++ !"inf"
  | B754_nan => !"nan"
  | B754_finite s m e _ => sign_of s ++ fixed (millionths m e)
  end.

(** A ConvertingStringView, cat.h:82-84: the member str_ and where the member sv_ points to, either
    to a text outside of all these objects or to the str_ of the object with the given number. *)
Inductive view := Outside (s : str) | Inside (k : nat).
Record csv := Csv { str_ : str; sv_ : view }.
(** The objects created so far; None: its lifetime has ended *)
Definition objects : Type := list (option csv).

(** An argument: a std::string, string_view or C string with the given text, a character, an
    integer, a floating-point number (binary64, or binary32 converted to it), or an existing
    ConvertingStringView. *)
Inductive arg := Text (s : str) | CString (s : str) | Char (c : ascii) | Int (z : Z) | Double (x : binary_float 53 1024) | Obj (k : nat).
(** string_view made from a C string: up to the terminating zero *)
Fixpoint up_to_nul (s : str) : str :=
  match s with
  | [] => []
  | c :: s' => if Ascii.eqb c "000" then [] else c :: up_to_nul s'
  end.
(** cat.h:50-63: the constructors, 48: the implicit copy constructor, which copies both members *)
Definition make (os : objects) (a : arg) : outcome csv :=
  let self := length os in
  match a with
  | Text s => Ok (Csv [] (Outside s))
  | CString s => Ok (Csv [] (Outside (up_to_nul s)))
  | Char c => Ok (Csv [c] (Inside self))
  | Int z => Ok (Csv (to_string z) (Inside self))
  | Double x => Ok (Csv (to_string_f x) (Inside self))
  | Obj k => match nth_error os k with Some (Some c) => Ok (Csv (str_ c) (sv_ c)) | _ => UB end
  end.
(** cat.h:65-80: what data() and size() denote *)
Definition read (os : objects) (c : csv) : outcome str :=
  match sv_ c with
  | Outside s => Ok s
  | Inside k => match nth_error os k with Some (Some c') => Ok (str_ c') | _ => UB end
  end.
Definition read_obj (os : objects) (k : nat) : outcome str :=
  match nth_error os k with Some (Some c) => read os c | _ => UB end.

(** A reference parameter: an argument that is a ConvertingStringView already is bound directly,
    for others a temporary is created; the result is the number of the object *)
Definition bind_ref (os : objects) (a : arg) : outcome (objects * nat) :=
  match a with
  | Obj k => Ok (os, k)
  | _ => c <- make os a ;; Ok (os ++ [Some c], length os)
  end.
Fixpoint bind_refs (os : objects) (args : list arg) : outcome (objects * list nat) :=
  match args with
  | [] => Ok (os, [])
  | a :: args' =>
      x <- bind_ref os a ;;
      y <- bind_refs (fst x) args' ;;
      Ok (fst y, snd x :: snd y)
  end.
(** The elements of an initializer_list are new objects *)
Fixpoint init_list (os : objects) (args : list arg) : outcome (objects * list nat) :=
  match args with
  | [] => Ok (os, [])
  | a :: args' =>
      c <- make os a ;;
      y <- init_list (os ++ [Some c]) args' ;;
      Ok (fst y, length os :: snd y)
  end.
(** str.append(piece.data(), piece.size()) for each of the pieces *)
Fixpoint append_all (os : objects) (res : str) (ks : list nat) : outcome str :=
  match ks with
  | [] => Ok res
  | k :: ks' => s <- read_obj os k ;; append_all os (res ++ s) ks'
  end.
(** An argument of a call can only be an object that was created before *)
Definition created (os : objects) (a : arg) : bool :=
  match a with Obj k => Nat.ltb k (length os) | _ => true end.
(** cat.h:97-120, cat.cc:28-61; the temporaries are gone after the call *)
Definition cat_args (os : objects) (args : list arg) : outcome str :=
  if negb (forallb (created os) args) then UB else
  x <- (if Nat.leb (length args) 3 then bind_refs os args else init_list os args) ;;
  append_all (fst x) [] (snd x).

(** A program: objects are created and destroyed, and cat is called *)
Inductive act := New (a : arg) | End_of (k : nat) | Cat (args : list arg).
Definition act_step (os : objects) (a : act) : outcome (objects * option str) :=
  match a with
  | New a => c <- make os a ;; Ok (os ++ [Some c], None)
  | End_of k => Ok (firstn k os ++ match skipn k os with _ :: r => None :: r | [] => [] end, None)
  | Cat args => s <- cat_args os args ;; Ok (os, Some s)
  end.
Fixpoint acts (os : objects) (l : list act) : outcome (list str) :=
  match l with
  | [] => Ok []
  | a :: l' =>
      x <- act_step os a ;;
      r <- acts (fst x) l' ;;
      Ok (match snd x with Some s => s :: r | None => r end)
  end.
