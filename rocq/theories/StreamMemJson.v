(** * StreamMemJson: the JSON writers on streams in memory
    include/eosio/to_json.hpp, include/eosio/stream.hpp *)
From Verif Require Import Base Stream TypedBin Abi AbiScalar TypedJson StreamMem.

(** to_json of include/eosio/to_json.hpp into any stream, and into include/eosio/stream.hpp:157-185 pretty_stream of any stream,
    current_indent being empty at first. A text that to_json writes byte by byte is one write here: into a buffer which is too small
    the code writes as much of the text as there is room for. *)
Definition json_text (E : float_lib) (env : nat -> jty) (fuel : nat) (t : jty) (v : val) (S : ostream) (s : ost S) : res (ost S) :=
  to_json (plain_out S) E env fuel t v s.
(** include/eosio/stream.hpp:157-185, include/eosio/to_json.hpp:268-277 *)
Definition pretty_text (E : float_lib) (env : nat -> jty) (fuel : nat) (t : jty) (v : val) (S : ostream) (s : ost S) : res (ost S) :=
  let* (s, _) := to_json (pretty_out S) E env fuel t v (s, 0%nat) in Ok s.
(** include/eosio/to_json.hpp:257-266 convert_to_json: as convert_to_bin, into a new string *)
Definition convert_to_json_mem (E : float_lib) (env : nat -> jty) (fuel : nat) (t : jty) (v : val) : res unit * bytes := two_passes (json_text E env fuel t v) [].
(** include/eosio/to_json.hpp:268-277 format_json *)
Definition format_json_mem (E : float_lib) (env : nat -> jty) (fuel : nat) (t : jty) (v : val) : res unit * bytes := two_passes (pretty_text E env fuel t v) [].
