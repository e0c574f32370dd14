(** Model of the stream input of include/gul14/date.h: date::parse and date::from_stream, in the
    configuration ONLY_C_LOCALE=1 (see FmtModel.v; the default configuration hands the
    directives %a %A %b %B %h %c %x %X %p %r and those with an E or O modifier to the time_get
    facet, all other directives are the same code).

    [Throw RuntimeError] stands for "failbit is set on the input stream"; the object passed to
    parse is then left alone. *)
From Coq Require Import Reals.
From Flocq Require Import Core.Core IEEE754.BinarySingleNaN.
From Verif Require Import Base IntModel FloatModel ToNumModel DateModel FmtModel.
Local Open Scope Z_scope.
Local Open Scope outcome_scope.

(** * The input stream: what is left to read, eofbit and failbit.  Library semantics
    ([istream.unformatted]): a sentry on a stream that is not good() sets failbit. *)
Record ist := IS { rest : str; eofb : bool; failb : bool }.
Definition good (s : ist) : bool := negb (eofb s) && negb (failb s).
Definition set_fail (s : ist) : ist := IS (rest s) (eofb s) true.
Definition set_eof (s : ist) : ist := IS (rest s) true (failb s).
Definition peek (s : ist) : option ascii * ist :=
  if good s then
    match rest s with
    | [] => (None, set_eof s)
    | c :: _ => (Some c, s)
    end
  else (None, set_fail s).
Definition get (s : ist) : ist :=
  if good s then
    match rest s with
    | [] => set_fail (set_eof s)
    | _ :: r => IS r (eofb s) (failb s)
    end
  else set_fail s.
(** isspace and isalnum in the classic locale *)
Definition is_space (c : ascii) : bool := memb c [" "%char; chr 9; chr 10; chr 11; chr 12; chr 13].
Definition is_alnum (c : ascii) : bool :=
  let v := uc c in
  ((48 <=? v) && (v <=? 57)) || ((65 <=? v) && (v <=? 90)) || ((97 <=? v) && (v <=? 122)).
(** std::ws *)
Fixpoint skip_ws (r : str) : str * bool :=
  match r with
  | [] => ([], true)
  | c :: r' => if is_space c then skip_ws r' else (r, false)
  end.
Definition ws (s : ist) : ist := let (r, e) := skip_ws (rest s) in IS r (eofb s || e) (failb s).

(** * Reading numbers *)
(** date.h:5863-5887 read_unsigned; x and count are unsigned ints *)
Fixpoint ru_loop (M : Z) (r : str) (count x : Z) : Z * Z * str * bool :=
  match r with
  | [] => (count, x, [], true)
  | c :: r' =>
      if is_digit c then
        let count' := uns (count + 1) in
        let x' := uns (uns (10 * x) + (sc c - sc "0")) in
        if count' =? M then (count', x', r', false) else ru_loop M r' count' x'
      else (count, x, r, false)
  end.
Definition read_unsigned (m M : Z) (s : ist) : Z * ist :=
  if good s then
    let '(count, x, r, e) := ru_loop M (rest s) 0 0 in
    let s' := IS r (eofb s || e) (failb s) in
    (x, if count <? m then set_fail s' else s')
  else (0, set_fail s).   (* peek sets failbit *)
(** date.h:5888-5912 read_signed *)
Definition read_signed (m M : Z) (s : ist) : outcome (Z * ist) :=
  let (ic, s1) := peek s in
  let fails := Ok (0, if m >? 0 then set_fail s1 else s1) in
  match ic with
  | None => fails
  | Some c =>
      if is_digit c || Ascii.eqb c "-" || Ascii.eqb c "+" then
        let s2 := if Ascii.eqb c "-" || Ascii.eqb c "+" then get s1 else s1 in
        let (x, s3) := read_unsigned (Z.max m 1) M s2 in
        if failb s3 then Ok (0, if m >? 0 then set_fail s3 else s3)
        else
          let v := conv int_t x in
          if Ascii.eqb c "-" then n <- int_ (- v) ;; Ok (n, s3) else Ok (v, s3)
      else fails
  end.
(** date.h:5914-5965 read_long_double; i and f are unsigned long long.  pow(10.L, fcount) is
    taken to be the long double nearest to 10^fcount. *)
Definition ull (z : Z) : Z := conv (IT false 64) z.
Fixpoint ld_loop (M : Z) (r : str) (point frac : bool) (count fcount i f : Z)
    : Z * Z * Z * Z * str * bool :=
  match r with
  | [] => (count, fcount, i, f, [], true)
  | c :: r' =>
      let count' := uns (count + 1) in
      if point && Ascii.eqb c "." then
        if count' =? M then (count', fcount, i, f, r', false)
        else ld_loop M r' false true count' fcount i f
      else if is_digit c then
        let d := sc c - sc "0" in
        let i' := if frac then i else ull (ull (10 * i) + d) in
        let f' := if frac then ull (ull (10 * f) + d) else f in
        let fc' := if frac then uns (fcount + 1) else fcount in
        if count' =? M then (count', fc', i', f', r', false)
        else ld_loop M r' point frac count' fc' i' f'
      else (count, fcount, i, f, r, false)
  end.
Definition ld_of (i f fcount : Z) : ldouble := fadd (f_of_Z i) (fdiv (f_of_Z f) (lit_pos fcount)).
Definition ld_zero : ldouble := B754_zero false.
Definition read_long_double (m M : Z) (s : ist) : ldouble * ist :=
  if good s then
    let '(count, fcount, i, f, r, e) := ld_loop M (rest s) true false 0 0 0 0 in
    let s' := IS r (eofb s || e) (failb s) in
    if count <? m then (ld_zero, set_fail s') else (ld_of i f fcount, s')
  else (ld_zero, set_fail s).

(** date.h:5967-6090 read(is, args...) for characters, ints, signed and unsigned fields.  The
    result lists the values of the fields that were read. *)
Inductive rarg := RC (c : ascii) | RI (z : Z) | RS (m M : Z) | RU (m M : Z).
(** Lines 6013-6034: one character; NUL is a no-op *)
Definition read_c (c : ascii) (s : ist) : ist :=
  if Ascii.eqb c NUL then s
  else
    let (ic, s1) := peek s in
    match ic with
    | None => set_fail (set_eof s1)
    | Some c' => if Ascii.eqb c' c then get s1 else set_fail s1
    end.
Fixpoint read_chars (l : str) (s : ist) : ist :=
  match l with
  | [] => s
  | c :: l' => if good s then read_chars l' (read_c c s) else s
  end.
Fixpoint read (args : list rarg) (s : ist) : outcome (list Z * ist) :=
  match args with
  | [] => Ok ([], s)
  | RC c :: args' =>
      let s' := read_c c s in
      if failb s' then Ok ([], s') else read args' s'
  | RI z :: args' =>   (* 6058-6078 *)
      let s' := if z =? -1 then s else read_chars (dec_u (uns z)) s in
      if good s' then read args' s' else Ok ([], s')
  | RS m M :: args' =>   (* 6036-6045 *)
      '(x, s') <- read_signed m M s ;;
      if failb s' then Ok ([], s')
      else '(l, s'') <- read args' s' ;; Ok (x :: l, s'')
  | RU m M :: args' =>   (* 6047-6056 *)
      let (x, s') := read_unsigned m M s in
      if failb s' then Ok ([], s')
      else '(l, s'') <- read args' s' ;; Ok (conv int_t x :: l, s'')
  end.

(** * date.h:4478-4582 scan_keyword

    Every keyword has a status.  The index of the keyword found is returned; failbit is set if
    there is none. *)
Inductive kst := NoMatch | Might | Does.
Definition is_might (k : str * kst) : bool := match snd k with Might => true | _ => false end.
Definition is_does (k : str * kst) : bool := match snd k with Does => true | _ => false end.
(** toupper in the classic locale *)
Definition to_upper (c : ascii) : ascii :=
  if (97 <=? uc c) && (uc c <=? 122) then chr (uc c - 32) else c.
(** Lines 4533-4552, one keyword against the upper-case character [c] *)
Definition kw_step (c : ascii) (idx : nat) (k : str * kst) : str * kst :=
  match snd k with
  | Might =>
      if Ascii.eqb c (to_upper (nth idx (fst k) NUL))
      then if Nat.eqb (length (fst k)) (S idx) then (fst k, Does) else k
      else (fst k, NoMatch)
  | _ => k
  end.
Definition kw_hit (c : ascii) (idx : nat) (k : str * kst) : bool :=
  is_might k && Ascii.eqb c (to_upper (nth idx (fst k) NUL)).
(** Lines 4561-4570: earlier matches no longer count *)
Definition kw_demote (idx : nat) (k : str * kst) : str * kst :=
  match snd k with
  | Does => if Nat.eqb (length (fst k)) (S idx) then k else (fst k, NoMatch)
  | _ => k
  end.
Fixpoint kw_loop (r : str) (idx : nat) (ks : list (str * kst)) : list (str * kst) * str * bool :=
  if existsb is_might ks then
    match r with
    | [] => (ks, [], true)
    | c :: r' =>
        let c' := to_upper c in
        let consume := existsb (kw_hit c' idx) ks in
        let ks' := map (kw_step c' idx) ks in
        if consume then
          let n := length (filter (fun k => is_might k || is_does k) ks') in
          kw_loop r' (S idx) (if Nat.ltb 1 n then map (kw_demote idx) ks' else ks')
        else (ks', r, false)
    end
  else (ks, r, false).
Definition kw_init (l : list str) : list (str * kst) :=
  map (fun k => (k, match k with [] => Does | _ => Might end)) l.
Fixpoint kw_first (ks : list (str * kst)) (i : Z) : option Z :=
  match ks with
  | [] => None
  | k :: ks' => if is_does k then Some i else kw_first ks' (i + 1)
  end.
Definition scan_keyword (l : list str) (s : ist) : Z * ist :=
  let '(ks, s1) :=
    if failb s then (kw_init l, s)
    else if good s
    then let '(ks, r, e) := kw_loop (rest s) 0 (kw_init l) in (ks, IS r (eofb s || e) (failb s))
    else (kw_init l, set_fail s) in
  match kw_first ks 0 with
  | Some i => (i, s1)
  | None => (zlen l, set_fail s1)
  end.

(** * The local variables of from_stream, date.h:6130-6170, and their "not a ..." values *)
Inductive fld := FY | Fy | Fg | FG | FC | Fm | Fd | Fj | Fwd | FH | FI | Fp | FM | Fs | FU | FV | FW | Foff.
Definition fld_eqb (a b : fld) : bool :=
  match a, b with
  | FY, FY | Fy, Fy | Fg, Fg | FG, FG | FC, FC | Fm, Fm | Fd, Fd | Fj, Fj | Fwd, Fwd | FH, FH
  | FI, FI | Fp, Fp | FM, FM | Fs, Fs | FU, FU | FV, FV | FW, FW | Foff, Foff => true
  | _, _ => false
  end.
Definition nav (f : fld) : Z :=
  match f with
  | FY | FG => -32768
  | Fy | Fg => 100
  | FC => -327
  | Fm | Fd => 0
  | Fj => -1
  | Fwd => 8
  | FH | FM => -2147483648
  | FI => 0
  | Fp => -1
  | Fs | Foff => -9223372036854775808
  | FU | FV | FW => 100
  end.
Definition vals := fld -> Z.
Definition upd (v : vals) (f : fld) (x : Z) : vals := fun g => if fld_eqb f g then x else v g.

(** State of the loop: stream, variables, the zone name, and command, modified, width; [inw]
    is set while the inner loop of the default case reads the digits of a width *)
Record pst := P { p_is : ist; p_v : vals; p_zone : str; p_cmd : bool; p_md : ascii; p_w : Z; p_inw : bool }.
Definition with_is (p : pst) (s : ist) : pst := P s (p_v p) (p_zone p) (p_cmd p) (p_md p) (p_w p) (p_inw p).
(** date.h:6092-6105 checked_set *)
Definition checked_set (f : fld) (x : Z) (p : pst) : pst :=
  if failb (p_is p) then p
  else if p_v p f =? nav f then P (p_is p) (upd (p_v p) f x) (p_zone p) (p_cmd p) (p_md p) (p_w p) (p_inw p)
  else if p_v p f =? x then p
  else with_is p (set_fail (p_is p)).
Definition set_zone (z : str) (p : pst) : pst :=
  if failb (p_is p) then p
  else match p_zone p with
       | [] => P (p_is p) (p_v p) z (p_cmd p) (p_md p) (p_w p) (p_inw p)
       | _ => if list_eq_dec ascii_dec (p_zone p) z then p else with_is p (set_fail (p_is p))
       end.

(** static_cast<long long>(long double) *)
Definition ld_to_ll (x : ldouble) : outcome Z :=
  if is_finite x && in_rangeb llong_t (Btrunc x) then Ok (Btrunc x) else UB.

Section Par.
(** The number of decimals of a second in Duration *)
Context (w : nat).

(** date.h:1302-1312 round_i<Duration>(duration<long double>): 1184-1211 floor and 1213-1237
    round.  The comparisons and differences are carried out in ticks, in long double. *)
Definition round_sec (x : ldouble) : outcome Z :=
  let d := fmul x (f_of_Z (ticks w)) in
  t <- ld_to_ll d ;;
  t0 <- (if flt d (f_of_Z t) then arith llong_t (t - 1) else Ok t) ;;
  t1 <- arith llong_t (t0 + 1) ;;
  let diff0 := fsub d (f_of_Z t0) in
  let diff1 := fsub (f_of_Z t1) d in
  if feq diff0 diff1 then Ok (if t0 - (t0 ÷ 2) * 2 =? 0 then t0 else t1)
  else if flt diff0 diff1 then Ok t0 else Ok t1.

(** The number of characters of the seconds: Duration::period::den == 1 ? 2 : 3 + width *)
Definition sec_chars : Z := if Nat.eqb w 0 then 2 else 3 + Z.of_nat w.

(** [read] into the fields [fs], one checked_set for each in the order of [order] *)
Definition vof (l : list Z) (i : nat) : Z := nth i l 0.
(** width == -1 ? n : static_cast<unsigned>(width) *)
Definition wd_or (p : pst) (n : Z) : Z := if p_w p =? -1 then n else uns (p_w p).
(** read(is, '%', width, modified, *fmt) *)
Definition verb (c : ascii) (p : pst) : outcome pst :=
  '(_, s) <- read [RC "%"; RI (p_w p); RC (p_md p); RC c] (p_is p) ;; Ok (with_is p s).
(** One number read into one field *)
Definition one (f : fld) (a : rarg) (p : pst) : outcome pst :=
  '(l, s) <- read [a] (p_is p) ;; Ok (checked_set f (vof l 0) (with_is p s)).
(** Hours, minutes and seconds: H or I, ':', M, ':', S *)
Definition clock (fh : fld) (p : pst) : outcome pst :=
  '(l, s) <- read [RU 1 2; RC ":"; RU 1 2; RC ":"] (p_is p) ;;
  let (x, s') := if failb s then (ld_zero, s) else read_long_double 1 sec_chars s in
  t <- round_sec x ;;
  Ok (checked_set Fs t (checked_set FM (vof l 1) (checked_set fh (vof l 0) (with_is p s')))).
Definition keyword (l : list str) (p : pst) : Z * pst :=
  let (i, s) := scan_keyword l (p_is p) in (i, with_is p s).

(** The characters of a time zone name, date.h:7133-7141 *)
Definition zone_char (c : ascii) : bool :=
  (1 <? sc c) && (sc c <? 127) && (is_alnum c || memb c (!"_/-+")).
Fixpoint zone_loop (r : str) : str * str * bool :=
  match r with
  | [] => ([], [], true)
  | c :: r' =>
      if zone_char c then let '(z, r'', e) := zone_loop r' in (c :: z, r'', e) else ([], r, false)
  end.

(** date.h:7054-7117 %z.  [tH] and [tM] are only used if they were read. *)
Definition offset_in (p : pst) : outcome pst :=
  let (ic, s0) := peek (p_is p) in
  let neg := match ic with Some c => Ascii.eqb c "-" | None => false end in
  let plain := Ascii.eqb (p_md p) NUL in
  '(l, s1) <- read [RS (if plain then 2 else 1) 2] s0 ;;
  '(toff, s3) <-
    (if failb s1 then Ok (nav Foff, s1)
     else
       let toff := 60 * Z.abs (vof l 0) in
       if good s1 then
         let (ic, s2) := peek s1 in
         match ic with
         | None => Ok (toff, s2)
         | Some c =>
             if (if plain then is_digit c else Ascii.eqb c ":") then
               '(l2, s3) <- read [RU 2 2] (if plain then s2 else get s2) ;;
               if failb s3 then Ok (toff, s3) else t <- arith llong_t (toff + vof l2 0) ;; Ok (t, s3)
             else Ok (toff, s2)
         end
       else Ok (toff, s1)) ;;
  toff' <- (if neg then arith llong_t (- toff) else Ok toff) ;;
  Ok (checked_set Foff toff' (with_is p s3)).

(** command = nullptr; width = -1; modified = CharT{}; *)
Definition reset (p : pst) : pst := P (p_is p) (p_v p) (p_zone p) false NUL (-1) false.
Definition fail_p (p : pst) : pst := with_is p (set_fail (p_is p)).

(** * One directive, date.h:6180-7153, the cases with [command] set *)
Definition in_directive (c : ascii) (p : pst) : outcome pst :=
  let s := p_is p in
  let plain := Ascii.eqb (p_md p) NUL in
  let isE := Ascii.eqb (p_md p) "E" in
  let isO := Ascii.eqb (p_md p) "O" in
  match c with
  | "a"%char | "A"%char =>   (* 6180-6260 *)
      if plain then
        let (i, p1) := keyword weekday_names p in
        Ok (reset (if failb (p_is p1) then p1 else checked_set Fwd (i mod 7) p1))
      else p1 <- verb c p ;; Ok (reset p1)
  | "u"%char | "w"%char =>   (* 6180-6260 *)
      if isE then p1 <- verb c p ;; Ok (reset p1)
      else
        '(l, s1) <- read [RU 1 (wd_or p 1)] s ;;
        let p1 := with_is p s1 in
        if failb s1 then Ok (reset p1)
        else
          let t := vof l 0 in
          let t' := if Ascii.eqb c "u" then (if (1 <=? t) && (t <=? 7) then (if t =? 7 then 0 else t) else 8)
                    else (if (0 <=? t) && (t <=? 6) then t else 8) in
          if t' =? 8 then Ok (reset (fail_p p1)) else Ok (reset (checked_set Fwd t' p1))
  | "b"%char | "B"%char | "h"%char =>   (* 6261-6291 *)
      if plain then
        let (i, p1) := keyword month_names p in
        Ok (reset (checked_set Fm (if failb (p_is p1) then 0 else i mod 12 + 1) p1))
      else p1 <- verb c p ;; Ok (reset p1)
  | "c"%char =>   (* 6292-6350 *)
      if isO then p1 <- verb c p ;; Ok (reset p1)
      else
        let (i, p1) := keyword weekday_names p in
        let p2 := checked_set Fwd (i mod 7) p1 in
        let p3 := with_is p2 (ws (p_is p2)) in
        let (j, p4) := keyword month_names p3 in
        let p5 := checked_set Fm (j mod 12 + 1) p4 in
        let p6 := with_is p5 (ws (p_is p5)) in
        p7 <- one Fd (RS 1 2) p6 ;;
        let p8 := with_is p7 (ws (p_is p7)) in
        p9 <- clock FH p8 ;;
        let p10 := with_is p9 (ws (p_is p9)) in
        p11 <- one FY (RS 1 4) p10 ;;
        Ok (reset p11)
  | "x"%char =>   (* 6351-6386 *)
      if isO then p1 <- verb c p ;; Ok (reset p1)
      else
        '(l, s1) <- read [RU 1 2; RC "/"; RU 1 2; RC "/"; RS 1 2] s ;;
        Ok (reset (checked_set Fd (vof l 1) (checked_set Fm (vof l 0) (checked_set Fy (vof l 2) (with_is p s1)))))
  | "X"%char =>   (* 6387-6426 *)
      if isO then p1 <- verb c p ;; Ok (reset p1) else p1 <- clock FH p ;; Ok (reset p1)
  | "C"%char =>   (* 6427-6457 *)
      p1 <- one FC (RS 1 (wd_or p 2)) p ;; Ok (reset p1)
  | "D"%char =>   (* 6458-6481 *)
      if plain then
        '(l, s1) <- read [RU 1 2; RC NUL; RC "/"; RC NUL; RU 1 2; RC NUL; RC "/"; RC NUL; RS 1 2] s ;;
        Ok (reset (checked_set Fd (vof l 1) (checked_set Fm (vof l 0) (checked_set Fy (vof l 2) (with_is p s1)))))
      else p1 <- verb c p ;; Ok (reset p1)
  | "F"%char =>   (* 6482-6504 *)
      if plain then
        '(l, s1) <- read [RS 1 (wd_or p 4); RC "-"; RU 1 2; RC "-"; RU 1 2] s ;;
        Ok (reset (checked_set Fd (vof l 2) (checked_set Fm (vof l 1) (checked_set FY (vof l 0) (with_is p s1)))))
      else p1 <- verb c p ;; Ok (reset p1)
  | "d"%char | "e"%char =>   (* 6505-6540 *)
      p1 <- (if isE then verb c p else one Fd (RS 1 (wd_or p 2)) p) ;; Ok (reset p1)
  | "H"%char =>   (* 6541-6572 *)
      p1 <- (if isE then verb c p else one FH (RU 1 (wd_or p 2)) p) ;; Ok (reset p1)
  | "I"%char =>   (* 6573-6593 *)
      if plain then
        '(l, s1) <- read [RS 1 (wd_or p 2)] s ;;
        let t := vof l 0 in
        let p1 := with_is p s1 in
        Ok (reset (checked_set FI t (if (1 <=? t) && (t <=? 12) then p1 else fail_p p1)))
      else p1 <- verb c p ;; Ok (reset p1)
  | "j"%char =>   (* 6594-6611 *)
      p1 <- (if plain then one Fj (RU 1 (wd_or p 3)) p else verb c p) ;; Ok (reset p1)
  | "M"%char =>   (* 6612-6643 *)
      p1 <- (if isE then verb c p else one FM (RU 1 (wd_or p 2)) p) ;; Ok (reset p1)
  | "m"%char =>   (* 6644-6675 *)
      p1 <- (if isE then verb c p else one Fm (RS 1 (wd_or p 2)) p) ;; Ok (reset p1)
  | "n"%char | "t"%char =>   (* 6676-6708; at the end of input, command stays set *)
      if plain then
        let (ic, s1) := peek s in
        match ic with
        | None => Ok (with_is p (let s2 := set_eof s1 in if Ascii.eqb c "n" then set_fail s2 else s2))
        | Some b =>
            Ok (reset (with_is p (if is_space b then get s1 else if Ascii.eqb c "n" then set_fail s1 else s1)))
        end
      else p1 <- verb c p ;; Ok (reset p1)
  | "p"%char =>   (* 6709-6743 *)
      if plain then
        let (i, p1) := keyword ampm_names p in Ok (reset (checked_set Fp i p1))
      else p1 <- verb c p ;; Ok (reset p1)
  | "r"%char =>   (* 6744-6787 *)
      if plain then
        p1 <- clock FI p ;;
        let p2 := with_is p1 (ws (p_is p1)) in
        let (i, p3) := keyword ampm_names p2 in
        Ok (reset (checked_set Fp i p3))
      else p1 <- verb c p ;; Ok (reset p1)
  | "R"%char =>   (* 6788-6808 *)
      if plain then
        '(l, s1) <- read [RU 1 2; RC NUL; RC ":"; RC NUL; RU 1 2; RC NUL] s ;;
        Ok (reset (checked_set FM (vof l 1) (checked_set FH (vof l 0) (with_is p s1))))
      else p1 <- verb c p ;; Ok (reset p1)
  | "S"%char =>   (* 6809-6844 *)
      if isE then p1 <- verb c p ;; Ok (reset p1)
      else
        let (x, s1) := read_long_double 1 (wd_or p sec_chars) s in
        t <- round_sec x ;;
        Ok (reset (checked_set Fs t (with_is p s1)))
  | "T"%char =>   (* 6845-6870 *)
      p1 <- (if plain then clock FH p else verb c p) ;; Ok (reset p1)
  | "Y"%char =>   (* 6871-6902 *)
      p1 <- (if isO then verb c p else one FY (RS 1 (wd_or p 4)) p) ;; Ok (reset p1)
  | "y"%char =>   (* 6903-6930 *)
      p1 <- one Fy (RU 1 (wd_or p 2)) p ;; Ok (reset p1)
  | "g"%char =>   (* 6931-6948 *)
      p1 <- (if plain then one Fg (RU 1 (wd_or p 2)) p else verb c p) ;; Ok (reset p1)
  | "G"%char =>   (* 6949-6966 *)
      p1 <- (if plain then one FG (RS 1 (wd_or p 4)) p else verb c p) ;; Ok (reset p1)
  | "U"%char =>   (* 6967-6984 *)
      p1 <- (if plain then one FU (RU 1 (wd_or p 2)) p else verb c p) ;; Ok (reset p1)
  | "V"%char =>   (* 6985-7002 *)
      p1 <- (if plain then one FV (RU 1 (wd_or p 2)) p else verb c p) ;; Ok (reset p1)
  | "W"%char =>   (* 7003-7020 *)
      p1 <- (if plain then one FW (RU 1 (wd_or p 2)) p else verb c p) ;; Ok (reset p1)
  | "z"%char =>   (* 7054-7117 *)
      p1 <- offset_in p ;; Ok (reset p1)
  | "Z"%char =>   (* 7118-7153 *)
      if plain then
        let '(z, s1) := if good s then let '(z, r, e) := zone_loop (rest s) in (z, IS r (eofb s || e) (failb s))
                        else ([], s) in
        let s2 := match z with [] => set_fail s1 | _ => s1 end in
        Ok (reset (set_zone z (with_is p s2)))
      else p1 <- verb c p ;; Ok (reset p1)
  | _ => p1 <- verb c p ;; Ok (reset p1)   (* not reached: [c] is one of [in_directives] *)
  end.
Definition in_directives : str := !"aAuwbBhcxXCDFdeHIjMmntprRSTYygGUVWzZ".

(** * The loop over the format, date.h:6176-7187 *)
Definition step (c : ascii) (p : pst) : outcome pst :=
  if memb c in_directives then
    if p_cmd p then in_directive c p
    else Ok (with_is p (read_c c (p_is p)))
  else if Ascii.eqb c "E" || Ascii.eqb c "O" then   (* 7021-7039 *)
    if p_cmd p
    then if Ascii.eqb (p_md p) NUL then Ok (P (p_is p) (p_v p) (p_zone p) true c (p_w p) false)
         else p1 <- verb c p ;; Ok (reset p1)
    else Ok (with_is p (read_c c (p_is p)))
  else if Ascii.eqb c "%" then   (* 7040-7053 *)
    if p_cmd p
    then if Ascii.eqb (p_md p) NUL then Ok (reset (with_is p (read_c c (p_is p))))
         else p1 <- verb c p ;; Ok (reset p1)
    else Ok (P (p_is p) (p_v p) (p_zone p) true (p_md p) (p_w p) false)
  else if p_cmd p then   (* 7154-7186 *)
    if (p_w p =? -1) && Ascii.eqb (p_md p) NUL && is_digit c
    then Ok (P (p_is p) (p_v p) (p_zone p) true (p_md p) (sc c - sc "0") true)
    else
      '(_, s) <- read (RC "%" :: RI (p_w p) :: (if Ascii.eqb (p_md p) NUL then [] else [RC (p_md p)]) ++ [RC c])
                      (p_is p) ;;
      Ok (reset (with_is p s))
  else if is_space c then Ok (if good (p_is p) then with_is p (ws (p_is p)) else p)
  else Ok (with_is p (read_c c (p_is p))).
Fixpoint loop (fmt : str) (p : pst) : outcome pst :=
  match fmt with
  | [] => Ok p
  | c :: fmt' =>
      if failb (p_is p) then Ok p
      else if p_inw p && is_digit c then   (* 7160-7161, the rest of a width *)
        a <- int_ (10 * p_w p) ;; b <- int_ (a + sc c) ;; n <- int_ (b - sc "0") ;;
        loop fmt' (P (p_is p) (p_v p) (p_zone p) (p_cmd p) (p_md p) n true)
      else
        p' <- step c (P (p_is p) (p_v p) (p_zone p) (p_cmd p) (p_md p) (p_w p) false) ;;
        loop fmt' p'
  end.

(** * After the loop, date.h:7188-7445.  [Throw RuntimeError] is goto broken. *)
Definition broken {A : Type} : outcome A := Throw RuntimeError.
(** Lines 7198-7225 for Y, y and 7226-7253 for G, g: the year and the century *)
Definition two_digit (yy Y C : Z) (noY noC : Z) : outcome (Z * Z) :=
  if yy =? 100 then Ok (Y, C)
  else if negb ((0 <=? yy) && (yy <=? 99)) then broken
  else
    C' <- (if C =? noC then
             if Y =? noY then Ok (if yy >=? 69 then 19 else 20)
             else n <- (if Y >=? 0 then Ok Y else int_ (Y - 100)) ;; Ok (n ÷ 100)
           else Ok C) ;;
    tY <- (if C' >=? 0 then a <- int_ (100 * C') ;; int_ (a + yy)
           else b <- int_ (C' + 1) ;; a <- int_ (100 * b) ;; int_ (a - (if yy =? 0 then 100 else yy))) ;;
    if negb (Y =? noY) && negb (Y =? tY) then broken else Ok (tY, C').
(** Lines 7262-7275 and the like: year, month and day must agree with the trial date *)
Definition agree (Y m d : Z) (x : ymd) (check_year : bool) : outcome (Z * Z * Z) :=
  Y' <- (if Y =? nav FY then Ok (yr x)
         else if check_year && negb (year Y =? yr x) then broken else Ok Y) ;;
  m' <- (if m =? 0 then Ok (mo x) else if negb (month (uns m) =? mo x) then broken else Ok m) ;;
  d' <- (if d =? 0 then Ok (dy x) else if negb (day (uns d) =? dy x) then broken else Ok d) ;;
  Ok (Y', m', d').
(** sys_days + weeks{n - 1} + (weekday{wd} - first) as a date *)
Definition week_date (start n wd first : Z) : outcome ymd :=
  a <- int_ (n - 1) ;; b <- int_ (7 * a) ;; c <- int_ (start + b) ;;
  e <- weekday_diff (weekday (uns wd)) first ;; g <- int_ (c + e) ;; from_days g.

Definition resolve_date (v : vals) : outcome (ymd * Z * Z) :=
  '(Y, C) <- two_digit (v Fy) (v FY) (v FC) (nav FY) (nav FC) ;;
  '(G, _) <- two_digit (v Fg) (v FG) C (nav FG) (nav FC) ;;
  let Y := if (Y <? -32767) || (Y >? 32767) then nav FY else Y in   (* 7254-7255 *)
  let m := v Fm in
  let d := v Fd in
  let wd := v Fwd in
  (* 7257-7276 *)
  let useV := negb (G =? nav FG) && negb (v FV =? 100) && negb (wd =? 8) in
  '(Y, m, d) <-
    (if useV then
       g1 <- int_ (G - 1) ;;
       t <- wlast_to_days (year g1) 12 4 ;; o <- weekday_diff 1 4 ;; st <- int_ (t + o) ;;
       x <- week_date st (v FV) wd 1 ;;
       agree Y m d x true
     else Ok (Y, m, d)) ;;
  (* 7277-7295 *)
  let useU := negb (Y =? nav FY) && negb (v FU =? 100) && negb (wd =? 8) in
  '(Y, m, d) <-
    (if useU then
       st <- ymw_to_days (YMW (year Y) 1 0 1) ;; x <- week_date st (v FU) wd 0 ;; agree Y m d x true
     else Ok (Y, m, d)) ;;
  (* 7296-7314 *)
  let useW := negb (Y =? nav FY) && negb (v FW =? 100) && negb (wd =? 8) in
  '(Y, m, d) <-
    (if useW then
       st <- ymw_to_days (YMW (year Y) 1 1 1) ;; x <- week_date st (v FW) wd 1 ;; agree Y m d x true
     else Ok (Y, m, d)) ;;
  (* 7315-7326; the year of the trial date is not compared *)
  let useJ := negb (v Fj =? -1) && negb (Y =? nav FY) in
  '(Y, m, d) <-
    (if useJ then
       st <- to_days (YMD (year Y) 1 1) ;; a <- int_ (v Fj - 1) ;; n <- int_ (st + a) ;;
       x <- from_days n ;; agree Y m d x false
     else Ok (Y, m, d)) ;;
  let j := if useJ then -1 else v Fj in
  (* 7327-7371 *)
  let x := YMD (year Y) (month (uns m)) (day (uns d)) in
  wd' <-
    (if ymd_ok x then
       n <- to_days x ;;
       e <- weekday_diff (weekday_from_days n) 0 ;;
       if negb (wd =? 8) && negb (wd =? e) then broken
       else
         _ <- (if negb (useV || useU || useW) then
                 _ <- (if negb (G =? nav FG) || negb (v FV =? 100) then
                         '(gt, st) <- iso_year n ;;
                         if negb (G =? nav FG) && negb (G =? gt) then broken
                         else if negb (v FV =? 100) then
                           q <- int_ (n - st) ;;
                           if negb (v FV =? q ÷ 7 + 1) then broken else Ok tt
                         else Ok tt
                       else Ok tt) ;;
                 _ <- (if negb (v FU =? 100) then
                         st <- ymw_to_days (YMW (yr x) 1 0 1) ;; q <- int_ (n - st) ;;
                         fl <- dur_floor int_t 7 q ;;
                         if negb (v FU =? fl + 1) then broken else Ok tt
                       else Ok tt) ;;
                 (if negb (v FW =? 100) then
                    st <- ymw_to_days (YMW (yr x) 1 1 1) ;; q <- int_ (n - st) ;;
                    fl <- dur_floor int_t 7 q ;;
                    if negb (v FW =? fl + 1) then broken else Ok tt
                  else Ok tt)
               else Ok tt) ;;
         Ok (if wd =? 8 then e else wd)
     else Ok wd) ;;
  Ok (x, wd', j).

(** Lines 7373-7409: the hour from H, I and p *)
Definition resolve_hour (v : vals) : outcome Z :=
  let H := v FH in
  let I := v FI in
  let p := v Fp in
  let noH := H =? nav FH in
  if I =? 0 then Ok H
  else if negb ((1 <=? I) && (I <=? 12)) then broken
  else if negb (p =? -1) then
    p' <- (if I =? 12 then int_ (p - 1) else Ok p) ;;
    a <- int_ (p' * 12) ;; I' <- int_ (I + a) ;;
    if noH then Ok I' else if negb (I' =? H) then broken else Ok H
  else if negb noH then
    if I =? 12 then (if negb (H =? 0) && negb (H =? 12) then broken else Ok H)
    else h12 <- int_ (H + 12) ;; if negb ((I =? H) || (I =? h12)) then broken else Ok H
  else broken.

(** Lines 7410-7433: the time of day; [f0] is the incoming value of the fields *)
Definition resolve_tod (v : vals) (H j : Z) (t0 : hms) (has0 : bool) : outcome (hms * bool) :=
  let k := ticks w in
  '(t1, has1) <-
    (if negb (H =? nav FH) then n <- arith llong_t (H * (3600 * k)) ;; t <- hms_of k n ;; Ok (t, true)
     else Ok (t0, has0)) ;;
  let '(t2, has2) := if negb (v FM =? nav FM) then (HMS (h_ t1) (v FM) (s_ t1) (sub_ t1) (neg_ t1), true)
                     else (t1, has1) in
  '(t3, has3) <-
    (if negb (v Fs =? nav Fs) then
       let q := v Fs ÷ k in
       qs <- arith llong_t (q * k) ;; sub <- arith llong_t (v Fs - qs) ;;
       Ok (HMS (h_ t2) (m_ t2) q sub (neg_ t2), true)
     else Ok (t2, has2)) ;;
  if negb (j =? -1) then
    h' <- arith llong_t (h_ t3 + 24 * j) ;; Ok (HMS h' (m_ t3) (s_ t3) (sub_ t3) (neg_ t3), true)
  else Ok (t3, has3).

(** date.h:6107-7455 from_stream(is, fmt, fields, abbrev, offset): the fields, the zone, the
    offset (nav Foff if none) and the stream *)
Record parsed := Parsed { r_fields : fields; r_zone : str; r_off : Z; r_is : ist }.
Definition init_vals : vals := nav.
Definition from_stream (fmt : str) (f0 : fields) (s : ist) : outcome parsed :=
  if negb (good s) then broken   (* the sentry *)
  else
    p <- loop (c_str fmt) (P s init_vals [] false NUL (-1) false) ;;
    s' <- (if good (p_is p) && p_cmd p   (* 7188-7195 *)
           then '(_, s1) <- read (RC "%" :: RI (p_w p) :: (if Ascii.eqb (p_md p) NUL then [] else [RC (p_md p)])) (p_is p) ;;
                Ok s1
           else Ok (p_is p)) ;;
    if failb s' then broken
    else
      let v := p_v p in
      '(x, wd, j) <- resolve_date v ;;
      H <- resolve_hour v ;;
      '(t, has) <- resolve_tod v H j (f_tod f0) (f_has f0) ;;
      Ok (Parsed (Fields x (if wd =? 8 then f_wd f0 else weekday (uns wd)) t has) (p_zone p) (v Foff) s').
End Par.

(** date.h:3691-3695 and 3573-3576 in_conventional_range *)
Definition conventional (w : nat) (t : hms) : bool :=
  negb (neg_ t) && (h_ t <? 24) && (m_ t <? 60) && (sub_ t <? ticks w) && (s_ t <? 60).

(** * is >> parse(fmt, x) on a stream that holds [s], date.h:7457-7720.  For the calendar types
    Duration is seconds. *)
Definition stream (s : str) : ist := IS s false false.
Definition no_fields : fields := Fields no_ymd no_wd no_tod false.
Definition parse_fields (fmt s : str) : outcome fields :=
  r <- from_stream 0 fmt no_fields (stream s) ;; Ok (r_fields r).
Definition parse_year (fmt s : str) : outcome Z :=
  f <- parse_fields fmt s ;; _ <- require (year_ok (yr (f_ymd f))) ;; Ok (yr (f_ymd f)).
Definition parse_month (fmt s : str) : outcome Z :=
  f <- parse_fields fmt s ;; _ <- require (month_ok (mo (f_ymd f))) ;; Ok (mo (f_ymd f)).
Definition parse_day (fmt s : str) : outcome Z :=
  f <- parse_fields fmt s ;; _ <- require (day_ok (dy (f_ymd f))) ;; Ok (dy (f_ymd f)).
Definition parse_weekday (fmt s : str) : outcome Z :=
  f <- parse_fields fmt s ;; _ <- require (weekday_ok (f_wd f)) ;; Ok (f_wd f).
(** Lines 7542-7555: the year is not checked *)
Definition parse_year_month (fmt s : str) : outcome ym :=
  f <- parse_fields fmt s ;; _ <- require (month_ok (mo (f_ymd f))) ;; Ok (YM (yr (f_ymd f)) (mo (f_ymd f))).
Definition parse_month_day (fmt s : str) : outcome (Z * Z) :=
  f <- parse_fields fmt s ;;
  _ <- require (month_ok (mo (f_ymd f)) && day_ok (dy (f_ymd f))) ;; Ok (mo (f_ymd f), dy (f_ymd f)).
Definition parse_ymd (fmt s : str) : outcome ymd :=
  f <- parse_fields fmt s ;; _ <- require (ymd_ok (f_ymd f)) ;; Ok (f_ymd f).
(** Lines 7591-7610 sys_time and 7612-7628 local_time, in ticks of 10^-w seconds.  The fields
    come with has_tod = true. *)
Definition tod_fields : fields := Fields no_ymd no_wd no_tod true.
Definition parse_sys (w : nat) (fmt s : str) : outcome Z :=
  r <- from_stream w fmt tod_fields (stream s) ;;
  let f := r_fields r in
  _ <- require (ymd_ok (f_ymd f) && conventional w (f_tod f)) ;;
  n <- to_days (f_ymd f) ;;
  dm <- arith llong_t (n * 1440) ;;
  a <- arith llong_t (dm - (if r_off r =? nav Foff then 0 else r_off r)) ;;
  t <- hms_to_duration (ticks w) (f_tod f) ;;
  b <- arith llong_t (a * (60 * ticks w)) ;;
  arith llong_t (b + t).
Definition parse_local (w : nat) (fmt s : str) : outcome Z :=
  r <- from_stream w fmt tod_fields (stream s) ;;
  let f := r_fields r in
  _ <- require (ymd_ok (f_ymd f) && conventional w (f_tod f)) ;;
  n <- to_days (f_ymd f) ;;
  t <- hms_to_duration (ticks w) (f_tod f) ;;
  b <- arith llong_t (n * (86400 * ticks w)) ;;
  arith llong_t (b + t).
(** Lines 7630-7649 durations *)
Definition parse_duration (w : nat) (fmt s : str) : outcome Z :=
  r <- from_stream w fmt no_fields (stream s) ;;
  let f := r_fields r in
  _ <- require (f_has f) ;; hms_to_duration (ticks w) (f_tod f).
