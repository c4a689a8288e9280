(** * WatchSpec: vocabulary for the callback of the converters (C63; specification) *)
From Verif Require Import Base Abi AbiBin Watch.

(** How often the callback was called without throwing. *)
Definition calls_of {St R} (e : ending St R) : nat := match e with Ended _ n | Stopped _ n => n end.
(** The JSON text in the buffer when bin_to_json succeeds or when the callback throws. *)
Definition written (e : ending bstate (bytes * bytes)) : option bytes :=
  match e with Ended (Ok (t, _)) _ => Some t | Stopped s _ => Some (b_out s) | _ => None end.
(** No struct has more fields. *)
Definition fields_up_to (n : nat) (m : amap) : Prop := forall p fs, afind p m = Some (AStruct fs) -> (List.length fs <= n)%nat.
(** The calls of one conversion with outcome [r]: the callback is called in the states [calls], one after
    the other. If it never throws there the conversion ends with [r]; otherwise it ends in the first of
    these states in which it throws. *)
Definition calls_are {St R} (calls : list St) (r : res R) (throws : nat -> bool) (e : ending St R) : Prop :=
  (e = Ended r (List.length calls) /\ forall i, (i < List.length calls)%nat -> throws i = false) \/
  (exists i s, nth_error calls i = Some s /\ throws i = true /\ (forall j, (j < i)%nat -> throws j = false) /\ e = Stopped s i).
