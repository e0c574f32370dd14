(** The texts that operator << writes for the calendar types *)
From Verif Require Import Base DateModel DateSpec FmtModel FmtSpec FmtSpec2 SlashModel SlashSpec.
Local Open Scope Z_scope.

(** The names of the classes *)
Definition class (v : val) : option str :=
  match v with
  | VInt _ | VLast => None
  | VYear _ => Some (!"year") | VMonth _ => Some (!"month") | VDay _ => Some (!"day")
  | VWi _ _ => Some (!"weekday_indexed") | VWl _ => Some (!"weekday_last")
  | VYm _ _ => Some (!"year_month") | VMd _ _ => Some (!"month_day") | VMdl _ => Some (!"month_day_last")
  | VMw _ _ _ => Some (!"month_weekday") | VMwl _ _ => Some (!"month_weekday_last")
  | VYmd _ _ _ => Some (!"year_month_day") | VYmdl _ _ => Some (!"year_month_day_last")
  | VYmw _ _ _ _ => Some (!"year_month_weekday") | VYmwl _ _ _ => Some (!"year_month_weekday_last")
  end.

(** The spelling: parts between slashes, months and weekdays by their short names; an ordinary
    date as in 2024-02-29 *)
Inductive spelled : val -> str -> Prop :=
| sp_year y t : signed 4 y t -> spelled (VYear y) t
| sp_month m t : month_text m t -> spelled (VMonth m) t
| sp_day d t : padded 2 d t -> spelled (VDay d) t
| sp_wi w i t u : weekday_text w t -> padded 1 i u -> spelled (VWi w i) (t ++ !"[" ++ u ++ !"]")
| sp_wl w t : weekday_text w t -> spelled (VWl w) (t ++ !"[last]")
| sp_ym y m t u : spelled (VYear y) t -> spelled (VMonth m) u -> spelled (VYm y m) (t ++ !"/" ++ u)
| sp_md m d t u : spelled (VMonth m) t -> spelled (VDay d) u -> spelled (VMd m d) (t ++ !"/" ++ u)
| sp_mdl m t : spelled (VMonth m) t -> spelled (VMdl m) (t ++ !"/last")
| sp_mw m w i t u : spelled (VMonth m) t -> spelled (VWi w i) u -> spelled (VMw m w i) (t ++ !"/" ++ u)
| sp_mwl m w t u : spelled (VMonth m) t -> spelled (VWl w) u -> spelled (VMwl m w) (t ++ !"/" ++ u)
| sp_ymd y m d t u v : signed 1 y t -> padded 2 m u -> padded 2 d v ->
    spelled (VYmd y m d) (t ++ !"-" ++ u ++ !"-" ++ v)
| sp_ymdl y m t u : spelled (VYear y) t -> spelled (VMdl m) u -> spelled (VYmdl y m) (t ++ !"/" ++ u)
| sp_ymw y m w i t u : spelled (VYear y) t -> spelled (VMw m w i) u -> spelled (VYmw y m w i) (t ++ !"/" ++ u)
| sp_ymwl y m w t u : spelled (VYear y) t -> spelled (VMwl m w) u -> spelled (VYmwl y m w) (t ++ !"/" ++ u).
