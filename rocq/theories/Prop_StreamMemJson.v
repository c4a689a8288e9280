(** C69 for JSON text: to_json into a given buffer, convert_to_json and format_json on their string. *)
From Verif Require Import Base Stream TypedBin Abi AbiScalar TypedJson AbiBin Prop_AbiBin StreamMem StreamMemSpec StreamMemFacts StreamMemJson StreamMemJsonFacts.

(** to_json of any value of any type into a fixed_buf_stream anywhere in any memory: the text that convert_to_json (format_json, through a pretty_stream) gives
    is written if it fits; if it does not, stream_error::overrun is thrown, a beginning of the text is in the buffer, and nothing else has changed. *)
Theorem C69_json_in_memory : forall E env fuel t v text m a e, convert_to_json E env fuel t v = Ok text ->
  0 <= a <= e -> e + len text < 2 ^ 64 ->
  exists m' x written rest, to_json (plain_out mem_stream) E env fuel t v (Buf m a e, None) = Ok (Buf m' (a + len written) e, x) /\
    text = written ++ rest /\ holds m m' a written /\ a + len written <= e /\
    (len text <= e - a -> x = None /\ rest = []) /\ (e - a < len text -> x = Some E_overrun).
Proof. intros E env fuel t v text m a e H. rewrite convert_is in H. exact (in_memory _ text m a e (pc_json E env fuel t v) H). Qed.
Print Assumptions C69_json_in_memory.
Theorem C69_pretty_in_memory : forall E env fuel t v text m a e, format_json E env fuel t v = Ok text ->
  0 <= a <= e -> e + len text < 2 ^ 64 ->
  exists m' x written rest indent, to_json (pretty_out mem_stream) E env fuel t v ((Buf m a e, None), 0%nat) = Ok ((Buf m' (a + len written) e, x), indent) /\
    text = written ++ rest /\ holds m m' a written /\ a + len written <= e /\
    (len text <= e - a -> x = None /\ rest = []) /\ (e - a < len text -> x = Some E_overrun).
Proof.
  intros E env fuel t v text m a e H A L. rewrite format_is in H.
  destruct (in_memory _ text m a e (pc_pretty E env fuel t v) H A L) as (m' & x & q & r & W & R). unfold pretty_text in W.
  apply bind_Ok in W as ((s & n) & W1 & W2).
  assert (Ok s = Ok (A := ost mem_stream) (Buf m' (a + len q) e, x)) as W3 by exact W2.
  exists m', x, q, r, n. split; [|exact R]. refine (eq_trans W1 _). exact (f_equal (fun z => bind z (fun z => Ok (z, n))) W3).
Qed.
Print Assumptions C69_pretty_in_memory.

(** convert_to_json and format_json by two passes through pointers, the second into a new string: the string has exactly the text. *)
Theorem C69_convert_to_json : forall E env fuel t v,
  (forall text, convert_to_json E env fuel t v = Ok text -> len text + len text < 2 ^ 64 -> convert_to_json_mem E env fuel t v = (Ok tt, text)) /\
  (forall err, convert_to_json E env fuel t v = Err err -> fst (convert_to_json_mem E env fuel t v) = Err err).
Proof.
  intros E env fuel t v. rewrite convert_is. destruct (two_passes_spec _ [] (pc_json E env fuel t v)) as [P Q]. split.
  - intros text H L. exact (P text H L).
  - intros err H. unfold convert_to_json_mem. now rewrite (Q err H).
Qed.
Print Assumptions C69_convert_to_json.
Theorem C69_format_json : forall E env fuel t v,
  (forall text, format_json E env fuel t v = Ok text -> len text + len text < 2 ^ 64 -> format_json_mem E env fuel t v = (Ok tt, text)) /\
  (forall err, format_json E env fuel t v = Err err -> fst (format_json_mem E env fuel t v) = Err err).
Proof.
  intros E env fuel t v. rewrite format_is. destruct (two_passes_spec _ [] (pc_pretty E env fuel t v)) as [P Q]. split.
  - intros text H L. exact (P text H L).
  - intros err H. unfold format_json_mem. now rewrite (Q err H).
Qed.
Print Assumptions C69_format_json.

(** A struct with a vector and an optional, into buffers with and without enough room, and by both conversions. *)
Definition ex_t : jty := JStruct (str "s") [(str "v", JVec (JScalar B_int8)); (str "o", JOpt (JScalar B_bool))].
Definition ex_v : val := VList [VList [VInt (-1); VInt 2]; VOpt (Some (VBool true))].
Example C69_json_ex :
  let text := str "{""v"":[-1,2],""o"":true}" in
  convert_to_json no_floats (fun _ => JView) 0 ex_t ex_v = Ok text /\ len text = 21 /\
  (exists m', to_json (plain_out mem_stream) no_floats (fun _ => JView) 0 ex_t ex_v (Buf (fun _ => 0) 100 130, None) = Ok (Buf m' 121 130, None)) /\
  (exists m', to_json (plain_out mem_stream) no_floats (fun _ => JView) 0 ex_t ex_v (Buf (fun _ => 0) 100 104, None) = Ok (Buf m' 104 104, Some E_overrun)) /\
  convert_to_json_mem no_floats (fun _ => JView) 0 ex_t ex_v = (Ok tt, text) /\
  (exists l, format_json_mem no_floats (fun _ => JView) 0 ex_t ex_v = (Ok tt, l) /\ len l = 57).
Proof. cbv zeta. repeat split; try (eexists; vm_compute; reflexivity); try (vm_compute; reflexivity). eexists. split; vm_compute; reflexivity. Qed.
