(** * C60: decoding by ABI and decoding by C++ type agree

    Vocabulary: [table], [addable], [writable_type], [describes], [abi_name], [nesting] (AddTypeSpec.v, as in C49):
    a program's type table which has the description of the C++ type [t]; [block_vectors t] (DecodeAgreeSpec.v):
    a vector of an arithmetic type occurs in [t]; [small bin] (AbiBinSound.v): bytes, fewer than 2^32.
    C49 is about the bytes the native writer makes. The theorems here are about every input, also bytes from
    elsewhere: sizes and indices written in more bytes than needed, cut off or invalid data.
    (std::vector<bool> is in [addable], but from_bin of it does not compile.) *)
From Verif Require Import Base Stream StreamFacts TypedBin TypedSpec TypedBinFacts Utf8 Json JsonSpec JsonFacts JsonPrint Keys Abi AbiSpec AbiFacts AbiScalar AbiScalarFacts
  BinLemmas AbiBin AbiValue AbiBinFacts AbiBinSound AbiRead AbiReadBack AbiUse Prop_AbiBin Prop_AbiJson TypedJson TypedJsonSpec TypedJsonFacts TypedJsonBack ShipFacts AddType AddTypeSpec AddTypeFacts AddTypeRun AddTypeValue
  Prop_AddType DecodeAgreeSpec DecodeAgreeFacts.

Lemma agree_run E m t env fuel bin : table m -> addable t = true -> writable_type t = true -> describes m t -> small bin ->
  rel (block_vectors t) bin (fun text v => convert_to_json E env fuel t v = Ok text) (bval E m 128 true (abi_name t) bin) (from_bin (fun n => erase (env n)) fuel (erase t) bin).
Proof.
  intros T A W D Hs. destruct (table_sound m T) as [SM _].
  rewrite from_bin_unfold. set (ref := fun (n : nat) (s : istream) => match fuel with O => _ | S f => _ end).
  set (rw := fun n v => match fuel with O => false | S f => wf (fun n => erase (env n)) f (erase (env n)) v end).
  pose proof (agree_all E ref rw (fun n v => match fuel with O => Undef "stack" | S f => tdoc E env f (env n) v end) m SM t A W D 128%nat true bin Hs) as R.
  unfold rel in *. destruct (bval E m 128 true (abi_name t) bin) as [[text rest]|e|w]; [|exact R|exact R]. destruct R as [P R]. split; [exact P|].
  destruct (from_bin_with ref (erase t) bin) as [[v r]| |]; [|exact R|exact R]. destruct R as [-> (Wv & j & Dj & ->)]. split; [reflexivity|].
  assert (Wf : wf (fun n => erase (env n)) fuel (erase t) v = true) by (rewrite wf_unfold; exact Wv).
  rewrite (convert_to_json_spec E env fuel t v (wf_jwf env fuel t v Wf)). rewrite tdoc_unfold, Dj. reflexivity.
Qed.

(** If both accept the data they read the same bytes of it, and the text which bin_to_json gives is the text
    of the value which from_bin gives. *)
Theorem C60_same_reading E m t env fuel bin text rest v rest' :
  table m -> addable t = true -> writable_type t = true -> describes m t -> small bin ->
  bin_to_json E m (abi_name t) bin (Ok (text, rest)) ->
  from_bin (fun n => erase (env n)) fuel (erase t) bin = Ok (v, rest') ->
  rest' = rest /\ convert_to_json E env fuel t v = Ok text.
Proof.
  intros T A W D Hs H F. apply bin_to_json_eq in H. pose proof (agree_run E m t env fuel bin T A W D Hs) as R. rewrite <- H, F in R. exact (proj2 R).
Qed.
Print Assumptions C60_same_reading.

(** Without vectors of arithmetic types: what bin_to_json accepts, from_bin accepts, with the same meaning. *)
Theorem C60_accepted_by_type E m t env fuel bin text rest :
  table m -> addable t = true -> writable_type t = true -> describes m t -> small bin -> block_vectors t = false ->
  bin_to_json E m (abi_name t) bin (Ok (text, rest)) ->
  exists v, from_bin (fun n => erase (env n)) fuel (erase t) bin = Ok (v, rest) /\ convert_to_json E env fuel t v = Ok text.
Proof.
  intros T A W D Hs B H. apply bin_to_json_eq in H. pose proof (agree_run E m t env fuel bin T A W D Hs) as R. rewrite <- H, B in R. destruct R as [_ R].
  destruct (from_bin (fun n => erase (env n)) fuel (erase t) bin) as [[v r]| |]; try discriminate R. destruct R as [-> R]. exists v. auto.
Qed.
Print Assumptions C60_accepted_by_type.

(** And what from_bin accepts, bin_to_json accepts, within its limits: the value's text can be written, is
    shorter than 2^31 bytes and nested no deeper than 128. *)
Theorem C60_accepted_by_abi E m t env fuel bin v rest text :
  table m -> addable t = true -> writable_type t = true -> describes m t -> small bin -> block_vectors t = false ->
  from_bin (fun n => erase (env n)) fuel (erase t) bin = Ok (v, rest) -> convert_to_json E env fuel t v = Ok text ->
  Z.of_nat (List.length text) < 2 ^ 31 -> (forall j, tdoc E env fuel t v = Ok j -> (nesting j <= 128)%nat) ->
  bin_to_json E m (abi_name t) bin (Ok (text, rest)).
Proof.
  intros T A W D Hs B F J L N. destruct (table_sound m T) as [SM _].
  rewrite from_bin_unfold in F. set (rw := fun (n : nat) (v : val) => match fuel with O => false | S f => wf (fun n => erase (env n)) f (erase (env n)) v end).
  destruct (typed_form _ rw (fun _ _ => Ok JNull) t A W B bin v rest Hs F) as (pre & -> & Fo & Wv).
  assert (H : wf (fun n => erase (env n)) fuel (erase t) v = true) by (rewrite wf_unfold; exact Wv).
  rewrite (convert_to_json_spec E env fuel t v (wf_jwf env fuel t v H)) in J. apply bind_Ok in J as (j & J & J'). assert (text = print j) by congruence. subst text. clear J'. specialize (N j J).
  rewrite tdoc_unfold in J. pose proof (av_shows E _ (fun _ _ => Ok []) _ m t A W D v j true 128%nat Wv J N L) as Sh. apply bin_to_json_eq. symmetry.
  apply (proj1 (bv_complete E m SM) 128%nat true (abi_name t) _ j Sh); [exact Fo|]. intros _. exact (av_settled _ m rest t A W D v Wv).
Qed.
Print Assumptions C60_accepted_by_abi.

(** Data which from_bin refuses is refused by bin_to_json for the same reason, unless bin_to_json gives up
    before it gets there: at its nesting limit, or writing a value which has no text. *)
Theorem C60_same_refusal E m t env fuel bin e r :
  table m -> addable t = true -> writable_type t = true -> describes m t -> small bin -> block_vectors t = false ->
  from_bin (fun n => erase (env n)) fuel (erase t) bin = Err e -> bin_to_json E m (abi_name t) bin r ->
  r = Err e \/ r = Err E_recursion_limit_reached \/ r = Undef "signed overflow" \/ r = Undef "buffer overflow".
Proof.
  intros T A W D Hs B F H. apply bin_to_json_eq in H. subst r. pose proof (agree_run E m t env fuel bin T A W D Hs) as R. rewrite F, B in R. unfold rel in R.
  destruct (bval E m 128 true (abi_name t) bin) as [[text rest]|e'|w].
  - destruct R as [_ R]. discriminate R.
  - destruct R as [R|[R|R]]; [discriminate R|left; congruence|]. unfold excused_error in R. subst e'. auto.
  - destruct R as [R|[R|R]]; [discriminate R|discriminate R|]. destruct R as [<-|[<-|[]]]; auto.
Qed.
Print Assumptions C60_same_refusal.

(** Vectors of arithmetic types: from_bin reads their size as a 64-bit number of up to ten bytes, bin_to_json as a
    32-bit number of up to five bytes whose bits beyond the 32nd are dropped. Each of the two accepts data which the other
    refuses. *)
Theorem C60_block_vectors_refuted : exists m t, table m /\ addable t = true /\ writable_type t = true /\ describes m t /\
  (exists bin, small bin /\ convert_from_bin (fun _ => TBool) 0 (erase t) bin = Ok (VList []) /\
     bin_to_json no_floats m (abi_name t) bin (Err E_invalid_varuint_encoding)) /\
  (exists bin, small bin /\ convert_from_bin (fun _ => TBool) 0 (erase t) bin = Err E_overrun /\
     bin_to_json no_floats m (abi_name t) bin (Ok (str "[]", []))).
Proof.
  destruct ex_describes as (T & D & _). exists ex_added, (JVec (JScalar B_int32)). split; [exact T|]. split; [reflexivity|]. split; [reflexivity|].
  split; [apply (describes_child ex_added ex_struct); [left; reflexivity|exact D]|]. split.
  - exists [128; 128; 128; 128; 128; 0]. split; [split; [apply bytes_okb_spec; reflexivity|cbn; lia]|]. split; [reflexivity|]. apply bin_to_json_eq. vm_compute. reflexivity.
  - exists [128; 128; 128; 128; 16]. split; [split; [apply bytes_okb_spec; reflexivity|cbn; lia]|]. split; [reflexivity|]. apply bin_to_json_eq. vm_compute. reflexivity.
Qed.
Print Assumptions C60_block_vectors_refuted.

(** ** Example: struct { vector<string> v; optional<int32_t> o; variant<int32_t, name> va; }, with the size of the vector and the
    index of the variant written in more bytes than needed. *)
Definition ex_row : jty :=
  JStruct (str "row") [(str "v", JVec (JScalar B_string)); (str "o", JOpt (JScalar B_int32)); (str "va", JVariant [JScalar B_int32; JScalar B_name])].
Definition ex_row_table : amap := Eval vm_compute in match add_type ex_row ex_table with Ok (_, m) => m | _ => [] end.
Example ex_row_describes : table ex_row_table /\ describes ex_row_table ex_row /\ addable ex_row = true /\ writable_type ex_row = true /\ block_vectors ex_row = false.
Proof.
  assert (C : coherent ex_table ex_row) by (apply coherent_dec; vm_compute; reflexivity).
  assert (A : add_type ex_row ex_table = Ok (str "row", ex_row_table)) by (vm_compute; reflexivity).
  pose proof (C49_adds ex_table ex_row ex_table_table eq_refl C) as G. rewrite A in G. destruct G as (_ & _ & D & T & _). auto.
Qed.
Definition ex_row_bin : bytes := [129; 0; 2; 104; 105; 1; 255; 255; 255; 255; 128; 128; 0; 7; 0; 0; 0; 99].
Definition ex_row_val : val := VList [VList [VStr (str "hi")]; VOpt (Some (VInt (-1))); VVar 0 (VInt 7)].
Example ex_row_typed : from_bin (fun n => erase ((fun _ => JView) n)) 0 (erase ex_row) ex_row_bin = Ok (ex_row_val, [99]).
Proof. reflexivity. Qed.
Example ex_row_by_abi : bin_to_json no_floats ex_row_table (str "row") ex_row_bin (Ok (str "{""v"":[""hi""],""o"":-1,""va"":[""int32"",7]}", [99])).
Proof.
  destruct ex_row_describes as (T & D & A & W & B).
  apply (C60_accepted_by_abi no_floats ex_row_table ex_row (fun _ => JView) 0 ex_row_bin ex_row_val [99] _ T A W D); [|exact B|exact ex_row_typed|vm_compute; reflexivity|vm_compute; reflexivity|].
  - split; [apply bytes_okb_spec; reflexivity|vm_compute; reflexivity].
  - intros j H. vm_compute in H. injection H as <-. vm_compute. lia.
Qed.
(** Cut off: refused by both, for the same reason. *)
Example ex_row_cut : from_bin (fun n => erase ((fun _ => JView) n)) 0 (erase ex_row) [129; 0; 2; 104] = Err E_overrun /\
  bin_to_json no_floats ex_row_table (str "row") [129; 0; 2; 104] (Err E_overrun).
Proof. split; [reflexivity|]. apply bin_to_json_eq. vm_compute. reflexivity. Qed.
