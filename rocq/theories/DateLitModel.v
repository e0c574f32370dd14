(** The literals of include/gul14/date.h *)
From Coq Require Import ZArith List.
From Verif Require Import Base IntModel DateModel.
Import ListNotations.
Local Open Scope Z_scope.

(** date.h:1811-1816 operator"""" _d(unsigned long long): converted to unsigned, stored as unsigned char *)
Definition lit_d (n : Z) : Z := day (conv uint_t n).
(** date.h:1818-1823 operator"""" _y(unsigned long long): converted to int, stored as short *)
Definition lit_y (n : Z) : Z := year (conv int_t n).
(** date.h:1828-1839 jan to dec, 1852-1863 January to December *)
Definition jan_dec : list Z := map month [1; 2; 3; 4; 5; 6; 7; 8; 9; 10; 11; 12].
Definition January_December : list Z := map month [1; 2; 3; 4; 5; 6; 7; 8; 9; 10; 11; 12].
(** date.h:1841-1847 sun to sat *)
Definition sun_sat : list Z := map weekday [0; 1; 2; 3; 4; 5; 6].
(** date.h:1865-1871 Monday to Sunday *)
Definition Monday_Sunday : list Z := map weekday [1; 2; 3; 4; 5; 6; 7].
