(** Model of the operators << of the calendar types of include/gul14/date.h, into a stream with
    default flags; the parts in common with FmtModel.v are used from there. *)
From Verif Require Import Base IntModel DateModel FmtModel SlashModel.
Local Open Scope Z_scope.
Local Open Scope outcome_scope.

Definition remark (ok : bool) (s : str) : str := if ok then [] else s.
(** date.h:1971-1975 low_level_fmt of weekday_last *)
Definition wdl_low (w : Z) : outcome str := s <- weekday_low w ;; Ok (s ++ !"[last]").
(** date.h:2211-2221 low_level_fmt of month_day, 2276-2283 month_day_last, 2334-2342
    month_weekday, 2393-2401 month_weekday_last *)
Definition md_low (m d : Z) : outcome str := s <- month_low m ;; Ok (s ++ "/"%char :: day_low d).
Definition mdl_low (m : Z) : outcome str := s <- month_low m ;; Ok (s ++ !"/last").
Definition mw_low (m w i : Z) : outcome str :=
  s <- month_low m ;; t <- wdi_low (weekday w) i ;; Ok (s ++ "/"%char :: t).
Definition mwl_low (m w : Z) : outcome str :=
  s <- month_low m ;; t <- wdl_low w ;; Ok (s ++ "/"%char :: t).
(** date.h:1436-1446 day, 1553-1565 month, 1668-1680 year, 1794-1806 weekday, 1917-1928
    weekday_indexed, 1978-1987 weekday_last, 2136-2147 year_month, 2223-2233 month_day,
    2288-2298 month_day_last, 2346-2357 month_weekday, 2405-2416 month_weekday_last, 2548-2559
    year_month_day_last, 2750-2766 year_month_day, 2967-2979 year_month_weekday, 3126-3138
    year_month_weekday_last *)
Definition val_put (v : val) : option (outcome str) :=
  match v with
  | VInt _ | VLast => None
  | VYear y => Some (Ok (year_put y))
  | VMonth m => Some (month_put m)
  | VDay d => Some (Ok (day_put d))
  | VWi w i => Some (s <- wdi_low (weekday w) i ;; Ok (s ++ remark (wi_ok w i) (!" is not a valid weekday_indexed")))
  | VWl w => Some (s <- wdl_low w ;; Ok (s ++ remark (weekday_ok w) (!" is not a valid weekday_last")))
  | VYm y m => Some (ym_put (YM y m))
  | VMd m d => Some (s <- md_low m d ;; Ok (s ++ remark (md_ok m d) (!" is not a valid month_day")))
  | VMdl m => Some (s <- mdl_low m ;; Ok (s ++ remark (month_ok m) (!" is not a valid month_day_last")))
  | VMw m w i => Some (s <- mw_low m w i ;;
                       Ok (s ++ remark (month_ok m && wi_ok w i) (!" is not a valid month_weekday")))
  | VMwl m w => Some (s <- mwl_low m w ;;
                      Ok (s ++ remark (month_ok m && weekday_ok w) (!" is not a valid month_weekday_last")))
  | VYmd y m d => Some (Ok (ymd_put (YMD y m d)))
  | VYmdl y m => Some (ymdl_put y m)
  | VYmw y m w i => Some (ymw_put (YMW y m w i))
  | VYmwl y m w => Some (s <- mwl_low m w ;;
                         Ok (year_low y ++ "/"%char :: s ++
                             remark (year_ok y && month_ok m && weekday_ok w)
                                    (!" is not a valid year_month_weekday_last")))
  end.
