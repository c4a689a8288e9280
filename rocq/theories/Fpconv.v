(** * Fpconv: printing floating point numbers (include/eosio/fpconv.c, include/eosio/powers.h)

    A double is its 64-bit pattern. uint64_t arithmetic is [w64] (modulo 2^64); int arithmetic is
    not wrapped (every int here stays below 2^12 in absolute value, see FpconvFacts.v). Shifts by a
    negative amount or by 64 or more, and accesses outside the arrays [digits], [dest], [tens] and
    [powers_ten], are undefined behaviour ([Undef]). Loops without a counter run on fuel; running
    out of it is [Undef] too, and is shown not to happen. *)
From Verif Require Import Base.

(** uint64_t arithmetic of include/eosio/fpconv.c:24-284 and include/eosio/powers.h:15-18. *)
Definition w64 (x : Z) : Z := x mod 2 ^ 64.
(** uint64_t << n *)
Definition shl (x n : Z) : res Z := if (0 <=? n) && (n <? 64) then Ok (w64 (x * 2 ^ n)) else Undef "bad shift".
(** uint64_t >> n *)
Definition shr (x n : Z) : res Z := if (0 <=? n) && (n <? 64) then Ok (x / 2 ^ n) else Undef "bad shift".

(** include/eosio/fpconv.c:13 *)
Definition hiddenbit : Z := 2 ^ 52.
(** include/eosio/fpconv.c:15 *)
Definition expbias : Z := 1023 + 52.
(** include/eosio/powers.h:9 *)
Definition npowers : Z := 87.
(** include/eosio/powers.h:10 *)
Definition steppowers : Z := 8.
(** include/eosio/powers.h:11 *)
Definition firstpower : Z := -348.
(** include/eosio/powers.h:13 *)
Definition expmax : Z := -32.
(** include/eosio/powers.h:14 *)
Definition expmin : Z := -60.
(** powers.h:16-19 *)
Record fp := Fp { frac : Z; fexp : Z }.
(** powers.h:21-51 *)
Definition powers_ten : list fp := [
   Fp 18054884314459144840 (-1220); Fp 13451937075301367670 (-1193); Fp 10022474136428063862 (-1166); Fp
   14934650266808366570 (-1140); Fp 11127181549972568877 (-1113); Fp 16580792590934885855 (-1087); Fp
   12353653155963782858 (-1060); Fp 18408377700990114895 (-1034); Fp 13715310171984221708 (-1007); Fp
   10218702384817765436 (-980); Fp 15227053142812498563 (-954); Fp 11345038669416679861 (-927); Fp
   16905424996341287883 (-901); Fp 12595523146049147757 (-874); Fp 9384396036005875287 (-847); Fp
   13983839803942852151 (-821); Fp 10418772551374772303 (-794); Fp 15525180923007089351 (-768); Fp
   11567161174868858868 (-741); Fp 17236413322193710309 (-715); Fp 12842128665889583758 (-688); Fp
   9568131466127621947 (-661); Fp 14257626930069360058 (-635); Fp 10622759856335341974 (-608); Fp
   15829145694278690180 (-582); Fp 11793632577567316726 (-555); Fp 17573882009934360870 (-529); Fp
   13093562431584567480 (-502); Fp 9755464219737475723 (-475); Fp 14536774485912137811 (-449); Fp
   10830740992659433045 (-422); Fp 16139061738043178685 (-396); Fp 12024538023802026127 (-369); Fp
   17917957937422433684 (-343); Fp 13349918974505688015 (-316); Fp 9946464728195732843 (-289); Fp
   14821387422376473014 (-263); Fp 11042794154864902060 (-236); Fp 16455045573212060422 (-210); Fp
   12259964326927110867 (-183); Fp 18268770466636286478 (-157); Fp 13611294676837538539 (-130); Fp
   10141204801825835212 (-103); Fp 15111572745182864684 (-77); Fp 11258999068426240000 (-50); Fp
   16777216000000000000 (-24); Fp 12500000000000000000 (3); Fp 9313225746154785156 (30); Fp
   13877787807814456755 (56); Fp 10339757656912845936 (83); Fp 15407439555097886824 (109); Fp
   11479437019748901445 (136); Fp 17105694144590052135 (162); Fp 12744735289059618216 (189); Fp
   9495567745759798747 (216); Fp 14149498560666738074 (242); Fp 10542197943230523224 (269); Fp
   15709099088952724970 (295); Fp 11704190886730495818 (322); Fp 17440603504673385349 (348); Fp
   12994262207056124023 (375); Fp 9681479787123295682 (402); Fp 14426529090290212157 (428); Fp
   10748601772107342003 (455); Fp 16016664761464807395 (481); Fp 11933345169920330789 (508); Fp
   17782069995880619868 (534); Fp 13248674568444952270 (561); Fp 9871031767461413346 (588); Fp
   14708983551653345445 (614); Fp 10959046745042015199 (641); Fp 16330252207878254650 (667); Fp
   12166986024289022870 (694); Fp 18130221999122236476 (720); Fp 13508068024458167312 (747); Fp
   10064294952495520794 (774); Fp 14996968138956309548 (800); Fp 11173611982879273257 (827); Fp
   16649979327439178909 (853); Fp 12405201291620119593 (880); Fp 9242595204427927429 (907); Fp
   13772540099066387757 (933); Fp 10261342003245940623 (960); Fp 15290591125556738113 (986); Fp
   11392378155556871081 (1013); Fp 16975966327722178521 (1039); Fp 12648080533535911531 (1066)].
(** fpconv.c:20-28 *)
Definition tens : list Z := [
   10000000000000000000; 1000000000000000000; 100000000000000000; 10000000000000000; 1000000000000000;
   100000000000000; 10000000000000; 1000000000000; 100000000000; 10000000000; 1000000000; 100000000; 10000000;
   1000000; 100000; 10000; 1000; 100; 10; 1].

(** build_fp: fpconv.c:40-57 (get_dbits: the bit pattern itself); [& fracmask] (fpconv.c:11) and [& expmask, >> 52]
    (fpconv.c:12, 46) are written with mod and / *)
Definition build_fp (bits : Z) : fp :=
  let f := bits mod 2 ^ 52 in
  let e := (bits / 2 ^ 52) mod 2 ^ 11 in
  if negb (e =? 0) then Fp (w64 (f + hiddenbit)) (e - expbias) else Fp f (- expbias + 1).

(** The two loops "while ((frac & bit) == 0) { frac <<= 1; exp--; }": fpconv.c:61-64, 76-79;
    [b] is the position of the bit. *)
Fixpoint shift_up (fuel : nat) (b : Z) (x : fp) : res fp :=
  if negb (Z.testbit (frac x) b) then
    match fuel with
    | O => Undef "endless loop"
    | S n => shift_up n b (Fp (w64 (frac x * 2)) (fexp x - 1))
    end
  else Ok x.
(** normalize: fpconv.c:59-69 *)
Definition normalize (x : fp) : res fp :=
  let* x := shift_up 64 52 x in
  let shift := 64 - 52 - 1 in
  let* f := shl (frac x) shift in
  Ok (Fp f (fexp x - shift)).
(** get_normalized_boundaries: fpconv.c:71-95; returns (lower, upper) *)
Definition get_normalized_boundaries (x : fp) : res (fp * fp) :=
  let* f2 := shl (frac x) 1 in
  let* upper := shift_up 64 53 (Fp (w64 (f2 + 1)) (fexp x - 1)) in
  let u_shift := 64 - 52 - 2 in
  let* uf := shl (frac upper) u_shift in
  let upper := Fp uf (fexp upper - u_shift) in
  let l_shift := if frac x =? hiddenbit then 2 else 1 in
  let* fl := shl (frac x) l_shift in
  let lower := Fp (w64 (fl - 1)) (fexp x - l_shift) in
  let* lf := shl (frac lower) (fexp lower - fexp upper) in
  Ok (Fp lf (fexp upper), upper).

(** multiply: fpconv.c:97-116 *)
Definition multiply (a b : fp) : fp :=
  let lo x := x mod 2 ^ 32 in
  let hi x := x / 2 ^ 32 in
  let ah_bl := w64 (hi (frac a) * lo (frac b)) in
  let al_bh := w64 (lo (frac a) * hi (frac b)) in
  let al_bl := w64 (lo (frac a) * lo (frac b)) in
  let ah_bh := w64 (hi (frac a) * hi (frac b)) in
  let tmp := w64 (lo ah_bl + lo al_bh + hi al_bl) in
  let tmp := w64 (tmp + 2 ^ 31) in
  Fp (w64 (ah_bh + hi ah_bl + hi al_bh + hi tmp)) (fexp a + fexp b + 64).

(** Rounding an integer to a multiple of a power of two with 53 significant bits (to nearest, ties
    to even), as the double multiplication in [find_cachedpow10] does. *)
Definition round53 (x : Z) : Z :=
  let a := Z.abs x in
  let n := Z.log2 a - 52 in
  if n <=? 0 then x
  else let q := a / 2 ^ n in
       let r := a mod 2 ^ n in
       let q := if (2 ^ n <? 2 * r) || ((2 * r =? 2 ^ n) && Z.odd q) then q + 1 else q in
       Z.sgn x * (q * 2 ^ n).
(** find_cachedpow10: powers.h:53-76. The constant 0.30102999566398114 is the double
    5422874305198590 / 2^54; the conversion to int truncates. *)
Fixpoint find_power (fuel : nat) (exp idx : Z) : res (fp * Z) :=
  match (if idx <? 0 then None else nth_error powers_ten (Z.to_nat idx)) with
  | None => Undef "array index out of range"
  | Some p =>
    let current := exp + fexp p + 64 in
    match fuel with
    | O => Undef "endless loop"
    | S n =>
      if current <? expmin then find_power n exp (idx + 1)
      else if expmax <? current then find_power n exp (idx - 1)
      else Ok (p, firstpower + idx * steppowers)
    end
  end.
(** include/eosio/powers.h:53-76 *)
Definition find_cachedpow10 (exp : Z) : res (fp * Z) :=
  let approx := Z.quot (round53 (- (exp + npowers) * 5422874305198590)) (2 ^ 54) in
  let idx := Z.quot (approx - firstpower) steppowers in
  find_power 87 exp idx.

(** round_digit: fpconv.c:118-126. The digits are the list [ds], the last one first. *)
Fixpoint round_digit (fuel : nat) (ds : list Z) (delta rem kappa frac : Z) : res (list Z) :=
  if (rem <? frac) && (kappa <=? w64 (delta - rem))
     && ((w64 (rem + kappa) <? frac) || (w64 (w64 (rem + kappa) - frac) <? w64 (frac - rem)))
  then match fuel, ds with
       | S n, d :: ds' => round_digit n ((d - 1) :: ds') delta (w64 (rem + kappa)) kappa frac
       | O, _ => Undef "endless loop"
       | _, [] => Undef "array index out of range"
       end
  else Ok ds.
(** "if (digit || idx) digits[idx++] = digit + '0'": fpconv.c:148-150, 173-175, with
    char digits[18] (fpconv.c:313). *)
Definition push_digit (ds : list Z) (digit : Z) : res (list Z) :=
  if negb (digit =? 0) || negb (Nat.eqb (List.length ds) 0)
  then if Nat.ltb (List.length ds) 18 then Ok ((digit + 48) :: ds) else Undef "array index out of range"
  else Ok ds.
(** The first loop of generate_digits, fpconv.c:143-162; [divs] are the entries of [tens] from [divp]
    on; s = -one.exp. [None]: the loop ended without a return (kappa = 0). *)
Fixpoint digits_whole (divs : list Z) (kappa : Z) (s wfrac delta part1 part2 : Z) (ds : list Z) : res (option (list Z * Z) * list Z * Z) :=
  if 0 <? kappa then
    match divs with
    | [] => Undef "array index out of range"
    | div :: divs' =>
      let digit := (part1 / div) mod 2 ^ 32 in
      let* ds := push_digit ds digit in
      let part1 := w64 (part1 - w64 (digit * div)) in
      let kappa := kappa - 1 in
      let* p := shl part1 s in
      let tmp := w64 (p + part2) in
      if tmp <=? delta then
        let* k := shl div s in
        let* ds := round_digit 20 ds delta tmp k wfrac in
        Ok (Some (ds, kappa), ds, part1)
      else digits_whole divs' kappa s wfrac delta part1 part2 ds
    end
  else Ok (None, ds, part1).
(** The second loop, fpconv.c:164-186; [units] are the entries of [tens] from [unit] downwards. *)
Fixpoint digits_fraction (units : list Z) (kappa : Z) (s wfrac delta part2 : Z) (ds : list Z) : res (list Z * Z) :=
  match units with
  | [] => Undef "array index out of range"
  | unit :: units' =>
    let part2 := w64 (part2 * 10) in
    let delta := w64 (delta * 10) in
    let kappa := kappa - 1 in
    let* q := shr part2 s in
    let digit := q mod 2 ^ 32 in
    let* ds := push_digit ds digit in
    let* one := shl 1 s in
    let part2 := part2 mod one in
    if part2 <? delta then
      let* ds := round_digit 20 ds delta part2 one (w64 (wfrac * unit)) in
      Ok (ds, kappa)
    else digits_fraction units' kappa s wfrac delta part2 ds
  end.
(** generate_digits: fpconv.c:128-187. Returns the digits (last first) and the change of K. *)
Definition generate_digits (w upper lower : fp) : res (list Z * Z) :=
  let wfrac := w64 (frac upper - frac w) in
  let delta := w64 (frac upper - frac lower) in
  let s := - fexp upper in
  let* one := shl 1 s in
  let* part1 := shr (frac upper) s in
  let part2 := (frac upper) mod one in
  let* (r, ds, _) := digits_whole (skipn 10 tens) 10 s wfrac delta part1 part2 [] in
  match r with
  | Some x => Ok x
  | None => digits_fraction (rev (firstn 19 tens)) 0 s wfrac delta part2 ds
  end.
(** grisu2: fpconv.c:189-211. Returns the digits (first digit first) and K. *)
Definition grisu2 (bits : Z) : res (bytes * Z) :=
  let w := build_fp bits in
  let* (lower, upper) := get_normalized_boundaries w in
  let* w := normalize w in
  let* (cp, k) := find_cachedpow10 (fexp upper) in
  let w := multiply w cp in
  let upper := multiply upper cp in
  let lower := multiply lower cp in
  let lower := Fp (w64 (frac lower + 1)) (fexp lower) in
  let upper := Fp (w64 (frac upper - 1)) (fexp upper) in
  let* (ds, kappa) := generate_digits w upper lower in
  Ok (rev ds, - k + kappa).

(** emit_digits: fpconv.c:213-284. The text written; every branch writes exactly the characters it
    returns the number of, and [dest] has [room] characters left. *)
Definition zeros (n : Z) : bytes := repeat 48 (Z.to_nat n).
(** include/eosio/fpconv.c:213-284 *)
Definition emit_text (digits : bytes) (K : Z) (neg : bool) : bytes :=
  let n := Z.of_nat (List.length digits) in
  let exp := Z.abs (K + n - 1) in
  if (0 <=? K) && (exp <? n + 7) then digits ++ zeros K
  else if (K <? 0) && ((-7 <? K) || (exp <? 4)) then
    let offset := n - Z.abs K in
    if offset <=? 0 then str "0." ++ zeros (- offset) ++ digits
    else firstn (Z.to_nat offset) digits ++ str "." ++ skipn (Z.to_nat offset) digits
  else
    let n := Z.min n (18 - (if neg then 1 else 0)) in
    let sign := if K + n - 1 <? 0 then 45 else 43 in
    let cent := if 99 <? exp then exp / 100 else 0 in
    let exp' := exp - cent * 100 in
    let dec := if 9 <? exp' then exp' / 10 else 0 in
    firstn 1 digits ++
    (if 1 <? n then str "." ++ firstn (Z.to_nat (n - 1)) (skipn 1 digits) else []) ++
    [101; sign] ++
    (if 99 <? exp then [cent + 48] else []) ++
    (if 9 <? exp' then [dec + 48] else if negb (cent =? 0) then [48] else []) ++
    [Z.rem (exp' - dec * 10) 10 + 48].
(** include/eosio/fpconv.c:213-284 with the size of the buffer *)
Definition emit_digits (digits : bytes) (K : Z) (neg : bool) (room : nat) : res bytes :=
  let t := emit_text digits K neg in
  if Nat.leb (List.length t) room then Ok t else Undef "buffer overflow".

(** filter_special: fpconv.c:286-309. The empty text stands for the return value 0. *)
Definition filter_special (bits : Z) : bytes :=
  if bits mod 2 ^ 63 =? 0 then [48]
  else if negb ((bits / 2 ^ 52) mod 2 ^ 11 =? 2 ^ 11 - 1) then []
  else if negb (bits mod 2 ^ 52 =? 0) then str "nan" else str "inf".
(** fpconv_dtoa: fpconv.c:311-336, with char dest[24] *)
Definition fpconv_dtoa (bits : Z) : res bytes :=
  let neg := negb (bits / 2 ^ 63 =? 0) in
  let sign := if neg then [45] else [] in
  let spec := filter_special bits in
  if negb (Nat.eqb (List.length spec) 0) then Ok (sign ++ spec)
  else
    let* (digits, K) := grisu2 bits in
    let* t := emit_digits digits K neg (24 - List.length sign) in
    Ok (sign ++ t).

(** include/eosio/to_json.hpp:140: the conversion of a float (its 32-bit pattern) to double, exact by IEC 60559. *)
Definition widen (b : Z) : Z :=
  let s := b / 2 ^ 31 in
  let e := (b / 2 ^ 23) mod 2 ^ 8 in
  let f := b mod 2 ^ 23 in
  s * 2 ^ 63 +
  (if e =? 255 then 2047 * 2 ^ 52 + f * 2 ^ 29
   else if negb (e =? 0) then (e + 896) * 2 ^ 52 + f * 2 ^ 29
   else if f =? 0 then 0
   else let n := Z.log2 f in (n + 874) * 2 ^ 52 + (f - 2 ^ n) * 2 ^ (52 - n)).
(** The double passed to fp_to_json(double value, S&) by to_json(double) and to_json(float):
    include/eosio/to_json.hpp:111-112, 139-140; [n] is the size of the number. *)
Definition as_double (n : nat) (bits : Z) : Z := if Nat.eqb n 4 then widen bits else bits.
