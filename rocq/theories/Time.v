(** * Model of the time conversions: include/eosio/chain_conversions.hpp:57-92, :231-334 and
    include/eosio/time.hpp. *)
From Verif Require Import Base Decimal Asset.

(** uint32_t arithmetic (include/eosio/chain_conversions.hpp:58-80, 234-301) *)
Definition u32 (z : Z) : Z := z mod 2 ^ 32.
(** uint64_t arithmetic (include/eosio/chain_conversions.hpp:313-334) *)
Definition u64 (z : Z) : Z := z mod 2 ^ 64.
(** Arithmetic on a signed [int] (include/eosio/chain_conversions.hpp:58-80): overflow is undefined ([Strict]) or wraps ([Wrap]). *)
Definition int32_op (m : overflow_mode) (z : Z) : res Z :=
  if fits_s 32 z then Ok z else match m with Strict => Undef "signed overflow" | Wrap => Ok (wrap_s 32 z) end.

(** include/eosio/chain_conversions.hpp:58-69 [year_month_day::from_days]. [ds] is the (int)
    day count. [z], [era] and [y] are int; [doe], [yoe], [doy], [mp], [d], [m] are uint32_t (the
    multiplications and additions on them stay far below 2^32, the subtractions are written as
    in the source). The int additions cannot overflow for the day counts a 64-bit microsecond
    count can reach. *)
Definition from_days (ds : Z) : Z * Z * Z :=
  let z := ds + 719468 in
  let era := Z.quot (if 0 <=? z then z else z - 146096) 146097 in
  let doe := u32 (z - era * 146097) in
  let yoe := u32 (doe - doe / 1460 + doe / 36524 - doe / 146096) / 365 in
  let y := yoe + era * 400 in
  let doy := u32 (doe - (365 * yoe + yoe / 4 - yoe / 100)) in
  let mp := (5 * doy + 2) / 153 in
  let d := u32 (doy - (153 * mp + 2) / 5 + 1) in
  let m := if mp <? 10 then mp + 3 else mp - 9 in
  (u32 (y + (if m <=? 2 then 1 else 0)), m, d).

(** include/eosio/chain_conversions.hpp:70-80 [year_month_day::to_days]; the fields are
    uint32_t. *)
Definition to_days (y m d : Z) : Z :=
  let _y := to_signed 32 y - (if m <=? 2 then 1 else 0) in
  let era := Z.quot (if 0 <=? _y then _y else _y - 399) 400 in
  let yoe := u32 (_y - era * 400) in
  let doy := u32 (u32 (153 * (if 2 <? m then m - 3 else m + 9) + 2) / 5 + d - 1) in
  let doe := u32 (yoe * 365 + yoe / 4 - yoe / 100 + doy) in
  era * 146097 + to_signed 32 doe - 719468.

(** include/eosio/chain_conversions.hpp:234-243 [append_uint]: exactly [digits] digits. *)
Fixpoint append_uint_loop (digits : nat) (value : Z) (acc : bytes) : bytes :=
  match digits with O => acc | S n => append_uint_loop n (value / 10) ((48 + value mod 10) :: acc) end.
(** include/eosio/chain_conversions.hpp:234-243 *)
Definition append_uint (value : Z) (digits : nat) : bytes := append_uint_loop digits (u32 value) [].

(** std::chrono: microseconds in a day (include/eosio/chain_conversions.hpp:246-249) *)
Definition us_per_day : Z := 86400000000.
(** std::chrono::floor<days>, include/eosio/chain_conversions.hpp:246: truncated quotient, minus one if that is too large. *)
Definition chrono_floor (us period : Z) : Z :=
  let t := Z.quot us period in if us <? t * period then t - 1 else t.

(** include/eosio/chain_conversions.hpp:231-264 [microseconds_to_str]. The argument is a
    uint64_t; it is reinterpreted as int64_t. [us -= sd] (:249) overflows for the first partial
    day of the int64 range. *)
Definition microseconds_to_str (m : overflow_mode) (microseconds : Z) : res bytes :=
  let us := to_signed 64 (u64 microseconds) in
  let sd := chrono_floor us us_per_day in
  let '(year, month, day) := from_days sd in
  let ms := u32 (chrono_floor us 1000 - sd * 86400000) in
  let* _ := int64_op m (sd * us_per_day) in
  Ok (append_uint year 4 ++ str "-" ++ append_uint month 2 ++ str "-" ++ append_uint day 2 ++ str "T" ++
      append_uint (ms / 3600000 mod 60) 2 ++ str ":" ++ append_uint (ms / 60000 mod 60) 2 ++ str ":" ++
      append_uint (ms / 1000 mod 60) 2 ++ str "." ++ append_uint (ms mod 1000) 3).

(** include/eosio/chain_conversions.hpp:268-277 [parse_uint] *)
Fixpoint parse_uint (digits : nat) (s : bytes) (result : Z) : option (Z * bytes) :=
  match digits with
  | O => Some (result, s)
  | S n => match s with
           | c :: s' => if is_digit c then parse_uint n s' (u32 (result * 10 + c - 48)) else None
           | [] => None
           end
  end.
(** include/eosio/chain_conversions.hpp:279-299: [s == end || *s++ != c] *)
Definition eat (c : Z) (s : bytes) : option bytes :=
  match s with x :: s' => if x =? c then Some s' else None | [] => None end.
(** The [return false] between two parts of include/eosio/chain_conversions.hpp:278-300 *)
Definition obind {A B} (x : option A) (f : A -> option B) : option B :=
  match x with Some a => f a | None => None end.

(** include/eosio/chain_conversions.hpp:278-300: the six numbers. *)
Definition parse_fields (s : bytes) : option (Z * Z * Z * Z * Z * Z * bytes) :=
  obind (parse_uint 4 s 0) (fun '(y, s) => obind (eat 45 s) (fun s =>
  obind (parse_uint 2 s 0) (fun '(mo, s) => obind (eat 45 s) (fun s =>
  obind (parse_uint 2 s 0) (fun '(d, s) => obind (eat 84 s) (fun s =>
  obind (parse_uint 2 s 0) (fun '(h, s) => obind (eat 58 s) (fun s =>
  obind (parse_uint 2 s 0) (fun '(mi, s) => obind (eat 58 s) (fun s =>
  obind (parse_uint 2 s 0) (fun '(sec, s) => Some (y, mo, d, h, mi, sec, s)))))))))))).

(** include/eosio/chain_conversions.hpp:301: [count() * 86400] is an int product, the rest is uint32_t. *)
Definition utc_seconds (m : overflow_mode) (y mo d h mi sec : Z) : res Z :=
  let* p := int32_op m (to_days y mo d * 86400) in
  Ok (u32 (p + h * 3600 + mi * 60 + sec)).

(** include/eosio/chain_conversions.hpp:302-305 *)
Fixpoint skip_digits (s : bytes) : bytes :=
  match s with c :: s' => if is_digit c then skip_digits s' else s | [] => [] end.
(** include/eosio/chain_conversions.hpp:302-305 *)
Definition eat_fraction (eat_fractional : bool) (s : bytes) : bytes :=
  match s with c :: s' => if eat_fractional && (c =? 46) then skip_digits s' else s | [] => [] end.

(** include/eosio/chain_conversions.hpp:266-307. [None] is [false]. *)
Definition string_to_utc_seconds_at (m : overflow_mode) (eat_fractional require_end : bool) (s : bytes)
  : res (option (Z * bytes)) :=
  match parse_fields s with
  | None => Ok None
  | Some (y, mo, d, h, mi, sec, s) =>
      let* r := utc_seconds m y mo d h mi sec in
      let s := eat_fraction eat_fractional s in
      Ok (match s with
          | [] => Some (r, s)
          | _ => if require_end then None else Some (r, s)
          end)
  end.
(** include/eosio/chain_conversions.hpp:309-311 *)
Definition string_to_utc_seconds (m : overflow_mode) (s : bytes) : res (option Z) :=
  let* r := string_to_utc_seconds_at m true true s in Ok (option_map fst r).

(** include/eosio/chain_conversions.hpp:324-328: at most six digits ([scale] reaches 0). *)
Fixpoint fraction_us (fuel : nat) (scale : Z) (s : bytes) (result : Z) : Z * bytes :=
  match fuel with
  | O => (result, s)
  | S f => match s with
           | c :: s' => if (1 <=? scale) && is_digit c
                        then fraction_us f (scale / 10) s' (u64 (result + u32 ((c - 48) * scale)))
                        else (result, s)
           | [] => (result, s)
           end
  end.
(** include/eosio/chain_conversions.hpp:313-334 [string_to_utc_microseconds]. *)
Definition string_to_utc_microseconds_at (m : overflow_mode) (require_end : bool) (s : bytes)
  : res (option (Z * bytes)) :=
  let* r := string_to_utc_seconds_at m false false s in
  match r with
  | None => Ok None
  | Some (sec, s) =>
      let result := u64 (sec * 1000000) in
      match s with
      | [] => Ok (Some (result, s))
      | c :: s' =>
          if negb (c =? 46) then Ok (if require_end then None else Some (result, s))
          else let (result, s) := fraction_us 7 100000 s' result in
               Ok (match s with [] => Some (result, s) | _ => if require_end then None else Some (result, s) end)
      end
  end.
(** include/eosio/chain_conversions.hpp:313-334 *)
Definition string_to_utc_microseconds (m : overflow_mode) (s : bytes) : res (option Z) :=
  let* r := string_to_utc_microseconds_at m true s in Ok (option_map fst r).

(** ** include/eosio/time.hpp *)
(** include/eosio/time.hpp:90-103 time_point JSON string contents ([elapsed] is int64). *)
Definition time_point_from_json_string (m : overflow_mode) (s : bytes) : res Z :=
  let* r := string_to_utc_microseconds m s in
  match r with Some us => Ok (to_signed 64 us) | None => Err E_expected_time_point end.
(** include/eosio/time.hpp:100-103 *)
Definition time_point_to_json_string (m : overflow_mode) (elapsed : Z) : res bytes :=
  microseconds_to_str m (u64 elapsed).
(** include/eosio/time.hpp:170-183 time_point_sec *)
Definition time_point_sec_from_json_string (m : overflow_mode) (s : bytes) : res Z :=
  let* r := string_to_utc_seconds m s in
  match r with Some x => Ok x | None => Err E_expected_time_point end.
(** include/eosio/time.hpp:179-182 *)
Definition time_point_sec_to_json_string (m : overflow_mode) (utc_seconds : Z) : res bytes :=
  microseconds_to_str m (u64 (utc_seconds * 1000000)).

(** include/eosio/time.hpp:66 [sec_since_epoch], :116, :126: truncated division, then uint32_t. *)
Definition time_point_sec_of_time_point (elapsed : Z) : Z := u32 (Z.quot elapsed 1000000).
(** include/eosio/time.hpp:121 [operator time_point] with :50 [seconds] *)
Definition time_point_of_sec (s : Z) : Z := s * 1000000.

(** include/eosio/time.hpp:213-217 [block_timestamp::operator time_point]: slot is uint32_t, so nothing overflows. *)
Definition time_point_of_block_timestamp (slot : Z) : Z := (slot * 500 + 946684800000) * 1000.
(** include/eosio/time.hpp:233-237 *)
Definition block_timestamp_of_time_point (elapsed : Z) : Z :=
  u32 (Z.quot (Z.quot elapsed 1000 - 946684800000) 500).
(** include/eosio/time.hpp:239-242 *)
Definition block_timestamp_of_sec (sec : Z) : Z := u32 (Z.quot (sec * 1000 - 946684800000) 500).
(** include/eosio/time.hpp:204-209 *)
Definition block_timestamp_next (slot : Z) : res Z :=
  let* _ := check (1 <=? 2 ^ 32 - 1 - slot) E_block_timestamp_overflow in Ok (u32 (slot + 1)).
(** include/eosio/time.hpp:252-262 *)
Definition block_timestamp_from_json_string (m : overflow_mode) (s : bytes) : res Z :=
  let* tp := time_point_from_json_string m s in Ok (block_timestamp_of_time_point tp).
(** include/eosio/time.hpp:259-262 *)
Definition block_timestamp_to_json_string (m : overflow_mode) (slot : Z) : res bytes :=
  time_point_to_json_string m (time_point_of_block_timestamp slot).

Global Arguments from_days : simpl never.
Global Arguments to_days : simpl never.
Global Arguments u32 : simpl never.
Global Arguments u64 : simpl never.
Global Arguments append_uint : simpl never.
