(** Formats with modifiers and unknown directives; what operator<< writes for values that are
    not valid. *)
From Verif Require Import Base DateModel DateSpec FmtSpec.
Local Open Scope Z_scope.
Local Open Scope char_scope.

(** * Modifiers *)
(** [Mod m c] is %mc where m is E or O; [Unknown c] is %c where c means nothing *)
Inductive xitem := Plain (i : item) | Mod (m c : ascii) | Unknown (c : ascii).
Definition xshow (i : xitem) : str :=
  match i with Plain i => show i | Mod m c => ["%"; m; c] | Unknown c => ["%"; c] end.
Definition xfmt_of (l : list xitem) : str := concat (map xshow l).
(** The directives each modifier can be combined with *)
Definition takes (m c : ascii) : bool :=
  match m with
  | "E" => memb c (!"cCxXyYz")
  | "O" => memb c (!"deHImMSuUVwWyz")
  | _ => false
  end.
(** The characters that mean something behind a percent sign *)
Definition known : str := !"%EOaAbBcCdDeFgGhHIjmMnpqQrRStTuUVwWxXyYzZ".
(** In the classic locale a modified directive stands for the same text as without the modifier,
    but for %Ez and %Oz; everything else is copied *)
Inductive xtext (R : ascii -> str -> Prop) : xitem -> str -> Prop :=
| xt_lit c : xtext R (Plain (Lit c)) [c]
| xt_dir c s : R c s -> xtext R (Plain (Dir c)) s
| xt_mod m c s : takes m c = true -> c <> "z" -> R c s -> xtext R (Mod m c) s
| xt_zone m h1 h2 m1 m2 sg : takes m "z" = true -> R "z" [sg; h1; h2; m1; m2] -> xtext R (Mod m "z") [sg; h1; h2; ":"; m1; m2]
| xt_bad m c : takes m c = false -> xtext R (Mod m c) ["%"; m; c]
| xt_unknown c : xtext R (Unknown c) ["%"; c].
Inductive xtexts (R : ascii -> str -> Prop) : list xitem -> str -> Prop :=
| xtexts_nil : xtexts R [] []
| xtexts_cons i t l s : xtext R i t -> xtexts R l s -> xtexts R (i :: l) (t ++ s).
Definition xcovered (P : ascii -> Prop) (l : list xitem) : Prop :=
  Forall (fun i => match i with
    | Plain (Lit c) => ordinary c
    | Plain (Dir c) => P c
    | Mod m c => (m = "E" \/ m = "O") /\ c <> "000" /\ (takes m c = true -> P c)
    | Unknown c => c <> "000" /\ memb c known = false
    end) l.
(** A directive that is cut off by the end of the format *)
Definition cut (s : str) : Prop := s = [] \/ s = !"%" \/ s = !"%E" \/ s = !"%O".

(** * Values that are not valid *)
(** [s] is [t], followed by a remark if the value is not valid *)
Definition marked (valid : Prop) (what t s : str) : Prop :=
  (valid /\ s = t) \/ (~ valid /\ s = t ++ !" is not a valid " ++ what).
(** A name or, if there is none, the number *)
Definition month_text (m : Z) (t : str) : Prop :=
  (1 <= m <= 12 /\ t = short (nth (Z.to_nat (m - 1)) months [])) \/ (~ 1 <= m <= 12 /\ padded 1 m t).
Definition weekday_text (wd : Z) (t : str) : Prop :=
  (0 <= wd <= 6 /\ t = short (nth (Z.to_nat wd) day_names [])) \/ (6 < wd /\ padded 1 wd t).
