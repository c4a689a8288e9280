(** * Model of the fuzzing entry point: src/fuzzer.cpp, src/fuzzer.hpp
    The input is a buffer of bytes; pointers into it are positions. Reading outside the buffer is undefined.
    The calls to the library are those of CapiPtr.v, with pointers into the buffer.
    Not modelled: abieos_create returning null (out of memory), destroying the context. *)
From Verif Require Import Base Stream TypedBin Json Abi AbiScalar AbiBin AbiJson AbiDef Capi CapiPtr.

(** src/fuzzer.hpp:11-17. The layout is that of the platforms the fuzzer is built for (x86-64, arm64): two
    bytes, six of padding, 8, 4 and 4 bytes, little endian. *)
Record header := Header { abi_is_bin : Z; operation : Z; hcontract : Z; abi_size : nat; type_size : nat }.
(** [sizeof(fuzzer_header)], src/fuzzer.hpp:11-17 *)
Definition sizeof_header : nat := 24.
(** The bytes at [pos], [n] of them: reading a member through the cast of src/fuzzer.cpp:12. *)
Definition at_ (buf : bytes) (pos n : nat) : bytes := firstn n (skipn pos buf).
(** src/fuzzer.cpp:9-13. [size_t] is larger than any difference of pointers here. *)
Definition get_header (buf : bytes) : option header :=
  if Nat.ltb (List.length buf) sizeof_header then None
  else Some (Header (le_val (at_ buf 0 1)) (le_val (at_ buf 1 1)) (le_val (at_ buf 8 8))
                    (Z.to_nat (le_val (at_ buf 16 4))) (Z.to_nat (le_val (at_ buf 20 4)))).
(** [pos[-1]], src/fuzzer.cpp:21 *)
Definition char_before (buf : bytes) (pos : nat) : res Z :=
  match pos with
  | O => Undef "read outside the buffer"
  | S p => match nth_error buf p with Some c => Ok c | None => Undef "read outside the buffer" end
  end.
(** src/fuzzer.cpp:16-24: the result (a position or null) and the new [pos]. A uint32_t and the difference
    of two pointers fit into a ptrdiff_t. *)
Definition get_zero_terminated (buf : bytes) (pos size : nat) : res (option nat * nat) :=
  if Nat.ltb (List.length buf - pos) size then Ok (None, pos)
  else
    let result := pos in
    let pos := (pos + size)%nat in
    if Nat.eqb pos result then Ok (None, pos)
    else let* c := char_before buf pos in
         if negb (c =? 0) then Ok (None, pos) else Ok (Some result, pos).
(** src/fuzzer.cpp:26-30 *)
Definition get_parts (buf : bytes) (h : header) : res (option (nat * nat * nat)) :=
  let* (abi, pos) := get_zero_terminated buf sizeof_header (abi_size h) in
  let* (type, pos) := get_zero_terminated buf pos (type_size h) in
  let* (data, pos) := get_zero_terminated buf pos (List.length buf - pos) in
  match abi, type, data with Some a, Some t, Some d => Ok (Some (a, t, d)) | _, _, _ => Ok None end.

(** How the entry point ends: with a return value (src/fuzzer.cpp:50) or in undefined behaviour. *)
Inductive fend := Exits (z : Z) | Dies (w : string).
(** A pointer to [pos], src/fuzzer.cpp:34-48: what can be read there is the rest of the buffer. *)
Definition in_buffer (buf : bytes) (pos : nat) : option pointer := Some (Outside (skipn pos buf)).
(** src/fuzzer.cpp:34-37 *)
Definition set_call (buf : bytes) (h : header) (abi : nat) : pop :=
  if negb (abi_is_bin h =? 0) then P_set_abi_bin (hcontract h) (in_buffer buf abi) (abi_size h)
  else P_set_abi (hcontract h) (in_buffer buf abi).
(** src/fuzzer.cpp:39-48; fuzzer_json_to_bin is 0. *)
Definition work_calls (buf : bytes) (h : header) (type data : nat) : list pop :=
  if operation h =? 0
  then [P_json_to_bin (hcontract h) (in_buffer buf type) (in_buffer buf data);
        P_json_to_bin_reorderable (hcontract h) (in_buffer buf type) (in_buffer buf data)]
  else [P_bin_to_json (hcontract h) (in_buffer buf type) (in_buffer buf data) (List.length buf - data)].
(** Calls one after the other whose results are dropped, src/fuzzer.cpp:39-48. *)
Inductive calls (E : float_lib) : memory -> list pop -> fend -> Prop :=
| calls_nil m : calls E m [] (Exits 0)
| calls_cons m f m' r l o : pcall E (Some m) f (Some m') (PReturns r) -> calls E m' l o -> calls E m (f :: l) o
| calls_dies m f m' w l : pcall E (Some m) f (Some m') (PUndefined w) -> calls E m (f :: l) (Dies w).
(** src/fuzzer.cpp:6-51 *)
Definition fuzz (E : float_lib) (buf : bytes) (o : fend) : Prop :=
  match get_header buf with
  | None => o = Exits 0
  | Some h =>
      match get_parts buf h with
      | Err _ => False
      | Undef w => o = Dies w
      | Ok None => o = Exits 0
      | Ok (Some (abi, type, data)) =>
          exists m x, pcall E (Some created) (set_call buf h abi) (Some m) x /\
          match x with
          | PUndefined w => o = Dies w
          | PReturns r =>
              match r with
              | P_bool true => calls E m (work_calls buf h type data) o
              | _ => o = Exits 0
              end
          end
      end
  end.
