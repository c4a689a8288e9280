(** * Watch: the callback of the converters
    include/eosio/abi.hpp:192-194 (the parameter [f]), src/abieos.hpp:587-596, 739-768, 884-899, src/abi.cpp:279-297

    The callback is called at the head of every iteration of the converters' loops. It has a state of
    its own; here it is a function which says, for the number of calls made before, whether this call throws. *)
From Verif Require Import Base Stream TypedBin Json JsonSpec Keys Abi AbiScalar Machine AbiBin AbiJson.

(** How a conversion with a callback comes to an end: by itself, after so many calls, or by an exception of
    the callback: the converter's state at that moment and the number of calls before this one. *)
Inductive ending (St R : Type) := Ended (r : res R) (calls : nat) | Stopped (s : St) (calls : nat).
Arguments Ended {St R} r calls.
Arguments Stopped {St R} s calls.

Section Watched.
  Context {St R : Type}.
  Variable step : St -> res (St + R).
  Variable calling : St -> bool.          (* the loop's condition holds: [f()] comes next *)
  Variable throws : nat -> bool.
  (** [while (...) { f(); ... }]: src/abieos.hpp:591-595, 750-757, 891-897. *)
  Inductive watched : nat -> St -> ending St R -> Prop :=
  | watched_throw n s : calling s = true -> throws n = true -> watched n s (Stopped s n)
  | watched_step n s s' e : (calling s = true -> throws n = false) -> step s = Ok (inl s') ->
      watched (if calling s then S n else n) s' e -> watched n s e
  | watched_done n s r : (calling s = true -> throws n = false) -> step s = Ok (inr r) ->
      watched n s (Ended (Ok r) (if calling s then S n else n))
  | watched_err n s e : (calling s = true -> throws n = false) -> step s = Err e ->
      watched n s (Ended (Err e) (if calling s then S n else n))
  | watched_undef n s w : (calling s = true -> throws n = false) -> step s = Undef w ->
      watched n s (Ended (Undef w) (if calling s then S n else n)).
End Watched.

(** [!state.stack.empty()]: src/abieos.hpp:591, 750, 891 *)
Definition bcalling (s : bstate) : bool := match b_stack s with [] => false | _ => true end.
(** src/abieos.hpp:750 *)
Definition jcalling (c : jconfig) : bool := match c with JLoop s => match j_stack s with [] => false | _ => true end | JCall _ _ _ => false end.
(** src/abieos.hpp:591 *)
Definition rcalling (c : rconfig) : bool := match c with RLoop s => match r_stack s with [] => false | _ => true end | RCall _ _ _ _ => false end.

(** src/abi.cpp:293-297, src/abieos.hpp:884-899 *)
Definition bin_to_json_with (throws : nat -> bool) (E : float_lib) (m : amap) (p : bytes) (bin : bytes) (e : ending bstate (bytes * bytes)) : Prop :=
  match bstart E m chain_budget true p (BS bin [] []) with
  | Ok s => watched (bstep E m) bcalling throws 0 s e
  | Err x => e = Ended (Err x) 0
  | Undef w => e = Ended (Undef w) 0
  end.
(** src/abi.cpp:287-291, src/abieos.hpp:739-768 *)
Definition json_to_bin_with (throws : nat -> bool) (E : float_lib) (m : amap) (p : bytes) (json bin : bytes) (e : ending jconfig bytes) : Prop :=
  watched (jstep E m bin) jcalling throws 0 (JCall true p (JSt (open_json json) [] [] [] false)) e.
(** src/abi.cpp:279-285: json_to_jvalue gets the callback but does not call it (src/abieos.hpp:508-527) *)
Definition json_to_bin_reorderable_with (throws : nat -> bool) (E : float_lib) (m : amap) (p : bytes) (json bin : bytes) (e : ending rconfig bytes) : Prop :=
  match json_to_jvalue json with
  | Ok x => watched (rstep E m) rcalling throws 0 (RCall true p x (RSt bin [] false)) e
  | Err x => e = Ended (Err x) 0
  | Undef w => e = Ended (Undef w) 0
  end.
