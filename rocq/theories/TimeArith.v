(** * Model of the arithmetic and the comparisons of the time types: include/eosio/time.hpp,
    include/eosio/operators.hpp. The conversions between the types are in Time.v.

    A [microseconds] and a [time_point] are their int64_t count, a [time_point_sec] is its
    uint32_t [utc_seconds], a [block_timestamp] its uint32_t [slot]. Overflow of int64_t
    arithmetic is undefined ([Strict]) or wraps ([Wrap], -fwrapv). *)
From Verif Require Import Base Decimal Asset Time.

(** ** microseconds *)
(** include/eosio/time.hpp:24 [microseconds::maximum] *)
Definition microseconds_maximum : Z := 9223372036854775807.
(** time.hpp:25-27 [operator+], :32-35 [operator+=] *)
Definition microseconds_add (m : overflow_mode) (l r : Z) : res Z := int64_op m (l + r).
(** time.hpp:28-30 [operator-], :36-39 [operator-=] *)
Definition microseconds_sub (m : overflow_mode) (l r : Z) : res Z := int64_op m (l - r).
(** time.hpp:41 [to_seconds]: truncated division *)
Definition microseconds_to_seconds (c : Z) : Z := Z.quot c 1000000.
(** time.hpp:50 [seconds], [milliseconds], [minutes], [hours], [days]: each product is an int64_t. *)
Definition make_seconds (m : overflow_mode) (s : Z) : res Z := int64_op m (s * 1000000).
(** time.hpp:51 *)
Definition make_milliseconds (m : overflow_mode) (s : Z) : res Z := int64_op m (s * 1000).
(** time.hpp:52 *)
Definition make_minutes (m : overflow_mode) (x : Z) : res Z :=
  let* s := int64_op m (60 * x) in make_seconds m s.
(** time.hpp:53 *)
Definition make_hours (m : overflow_mode) (h : Z) : res Z :=
  let* x := int64_op m (60 * h) in make_minutes m x.
(** time.hpp:54 *)
Definition make_days (m : overflow_mode) (d : Z) : res Z :=
  let* h := int64_op m (24 * d) in make_hours m h.

(** ** time_point *)
(** time.hpp:68 [time_point::max] *)
Definition time_point_max : Z := microseconds_maximum.
(** time.hpp:71-74 [operator+=], :79 [operator+ (microseconds)] *)
Definition time_point_add (m : overflow_mode) (t d : Z) : res Z := microseconds_add m t d.
(** time.hpp:80 [operator+ (time_point)] *)
Definition time_point_add_point (m : overflow_mode) (t u : Z) : res Z := microseconds_add m t u.
(** time.hpp:75-78 [operator-=], :81 [operator- (microseconds)] *)
Definition time_point_sub (m : overflow_mode) (t d : Z) : res Z := microseconds_sub m t d.
(** time.hpp:82 [operator- (time_point)]: the counts are subtracted, not the [microseconds]. *)
Definition time_point_diff (m : overflow_mode) (t u : Z) : res Z := int64_op m (t - u).

(** ** time_point_sec *)
(** time.hpp:118-119 [maximum], [min] *)
Definition time_point_sec_maximum : Z := 4294967295.
(** time.hpp:119 *)
Definition time_point_sec_min : Z := 0.
(** time.hpp:129-132 [operator+= (uint32_t)], :153 [operator+ (uint32_t)]: uint32_t arithmetic *)
Definition sec_add (s n : Z) : Z := u32 (s + n).
(** time.hpp:133-136 [operator+= (microseconds)]: the sum of a uint32_t and an int64_t is an int64_t
    (it cannot overflow: at most 2^32 + 2^63/10^6), which is then stored as uint32_t. *)
Definition sec_add_microseconds (s c : Z) : Z := u32 (s + microseconds_to_seconds c).
(** time.hpp:137-140 [operator+= (time_point_sec)] *)
Definition sec_add_sec (s t : Z) : Z := u32 (s + t).
(** time.hpp:141-144, :154 [operator-= (uint32_t)], [operator- (uint32_t)] *)
Definition sec_sub (s n : Z) : Z := u32 (s - n).
(** time.hpp:145-148 [operator-= (microseconds)] *)
Definition sec_sub_microseconds (s c : Z) : Z := u32 (s - microseconds_to_seconds c).
(** time.hpp:149-152 [operator-= (time_point_sec)] *)
Definition sec_sub_sec (s t : Z) : Z := u32 (s - t).
(** time.hpp:156 [operator+ (time_point_sec, microseconds)] gives a time_point *)
Definition sec_plus_microseconds (m : overflow_mode) (s c : Z) : res Z :=
  let* t := make_seconds m s in time_point_add m t c.
(** time.hpp:157 [operator- (time_point_sec, microseconds)] gives a time_point *)
Definition sec_minus_microseconds (m : overflow_mode) (s c : Z) : res Z :=
  let* t := make_seconds m s in time_point_sub m t c.
(** time.hpp:158-160 [operator- (time_point_sec, time_point_sec)] gives microseconds *)
Definition sec_minus_sec (m : overflow_mode) (s u : Z) : res Z :=
  let* t := make_seconds m s in let* v := make_seconds m u in time_point_diff m t v.
(** time.hpp:161 [operator- (time_point, time_point_sec)] *)
Definition point_minus_sec (m : overflow_mode) (t u : Z) : res Z :=
  let* v := make_seconds m u in time_point_diff m t v.
(** [time_point_sec - time_point]: no operator takes these two types. Of the two that can be
    called after an implicit conversion, overload resolution prefers :158 (its first argument
    needs no conversion), so the time_point is converted by the constructor :116, which drops
    the fraction of the second. *)
Definition sec_minus_point (m : overflow_mode) (s u : Z) : res Z :=
  sec_minus_sec m s (time_point_sec_of_time_point u).

(** ** block_timestamp *)
(** time.hpp:201-202 [maximum], [min] *)
Definition block_timestamp_maximum : Z := 65535.
(** time.hpp:202 *)
Definition block_timestamp_min : Z := 0.
(** time.hpp:222-227: the comparisons of slots *)
Definition slot_gt (a b : Z) : bool := b <? a.
(** time.hpp:223 *)
Definition slot_ge (a b : Z) : bool := b <=? a.
(** time.hpp:224 *)
Definition slot_lt (a b : Z) : bool := a <? b.
(** time.hpp:225 *)
Definition slot_le (a b : Z) : bool := a <=? b.
(** time.hpp:226 *)
Definition slot_eq (a b : Z) : bool := a =? b.
(** time.hpp:227 *)
Definition slot_ne (a b : Z) : bool := negb (a =? b).

(** ** Comparisons made by EOSIO_COMPARE (include/eosio/time.hpp:48, :88, :168) *)
(** include/eosio/operators.hpp:29-40 on integers *)
Definition compare_ints (l r : Z) : Z := if l <? r then -1 else if r <? l then 1 else 0.
(** include/eosio/operators.hpp:42-52 [eosio_compare] on a struct whose only field is compared
    by [f] ([result] is 0 before the field). *)
Definition compare_one (f : Z -> Z -> Z) (l r : Z) : Z := let result := 0 in if result =? 0 then f l r else result.
(** [microseconds] has one int64_t field, [time_point] one [microseconds] field, and
    [time_point_sec] one uint32_t field. time_point_sec is not named in an EOSIO_COMPARE (:168
    names time_point again), but it converts to time_point, which enables the templates. *)
Definition compare_microseconds : Z -> Z -> Z := compare_one compare_ints.
(** time.hpp:87-88 *)
Definition compare_time_points : Z -> Z -> Z := compare_one compare_microseconds.
(** time.hpp:167-168 *)
Definition compare_secs : Z -> Z -> Z := compare_one compare_ints.
(** include/eosio/operators.hpp:54-57 *)
Definition lt_by (cmp : Z -> Z -> Z) (l r : Z) : bool := cmp l r <? 0.
(** operators.hpp:58-61 *)
Definition gt_by (cmp : Z -> Z -> Z) (l r : Z) : bool := 0 <? cmp l r.
(** operators.hpp:62-65 *)
Definition le_by (cmp : Z -> Z -> Z) (l r : Z) : bool := cmp l r <=? 0.
(** operators.hpp:66-69 *)
Definition ge_by (cmp : Z -> Z -> Z) (l r : Z) : bool := 0 <=? cmp l r.
(** include/eosio/operators.hpp:18-23 [operator==], [operator!=] on a struct with one field *)
Definition eq_one (f : Z -> Z -> bool) (l r : Z) : bool := true && f l r.
(** time.hpp:47-48 *)
Definition eq_microseconds : Z -> Z -> bool := eq_one Z.eqb.
(** time.hpp:87-88 *)
Definition eq_time_points : Z -> Z -> bool := eq_one eq_microseconds.
(** time.hpp:167-168 *)
Definition eq_secs : Z -> Z -> bool := eq_one Z.eqb.
(** operators.hpp:24-27 *)
Definition ne_by (f : Z -> Z -> bool) (l r : Z) : bool := negb (f l r).
