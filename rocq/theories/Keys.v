(** * Keys and signatures as text: src/crypto.cpp:86-203, include/eosio/crypto.hpp *)
From Verif Require Import Base Stream TypedBin Base58 Ripemd160.

(** include/eosio/crypto.hpp:27-107: the variants (char arrays; enum class : uint8_t). *)
Definition char_array (n : nat) : ty := TArr n (TInt true 1).
(** include/eosio/crypto.hpp:34-57 *)
Definition webauthn_public_key_ty : ty :=
  TWrap (KStruct [str "key"; str "user_presence"; str "rpid"]) (TTuple [char_array 33; TInt false 1; TString]).
(** include/eosio/crypto.hpp:71 *)
Definition public_key_ty : ty := TVariant [char_array 33; char_array 33; webauthn_public_key_ty].
(** include/eosio/crypto.hpp:73-74 *)
Definition private_key_ty : ty := TVariant [char_array 32; char_array 32].
(** include/eosio/crypto.hpp:85-104 *)
Definition webauthn_signature_ty : ty :=
  TWrap (KStruct [str "compact_signature"; str "auth_data"; str "client_json"])
        (TTuple [char_array 65; TVec (TInt false 1); TString]).
(** include/eosio/crypto.hpp:107 *)
Definition signature_ty : ty := TVariant [char_array 65; char_array 65; webauthn_signature_ty].
(** None of these types is recursive. *)
Definition key_env : nat -> ty := fun _ => TBool.

(** src/crypto.cpp:98-110 [string_to_key] *)
Definition string_to_key (t : ty) (s : bytes) (type : Z) (suffix : bytes) : res val :=
  let* d := base58_to_binary s in
  let whole := type :: d in
  let* _ := check (Nat.ltb 5 (List.length whole)) E_expected_key in
  let size := List.length whole in
  let* ripe_digest := digest_suffix_ripemd160 (firstn (size - 5) (skipn 1 whole)) suffix in
  let* _ := check (beq (firstn 4 ripe_digest) (firstn 4 (skipn (size - 4) whole))) E_expected_key in
  convert_from_bin key_env 0 t (firstn (size - 4) whole).
(** src/crypto.cpp:112-118 [key_to_string] *)
Definition key_to_string (t : ty) (key : val) (suffix prefix : bytes) : res bytes :=
  let* whole := convert_to_bin key_env 0 t key [] in
  let* ripe_digest := digest_suffix_ripemd160 (skipn 1 whole) suffix in
  let whole := whole ++ firstn 4 ripe_digest in
  Ok (prefix ++ binary_to_base58 (skipn 1 whole)).

(** std::variant::index() *)
Definition index (v : val) : Z := match v with VVar i _ => i | _ => -1 end.
(** std::string_view: [s.substr(0, |p|) == p] *)
Definition starts (s p : bytes) : bool := beq (firstn (List.length p) s) p.

(** src/crypto.cpp:121-132 *)
Definition public_key_to_string (key : val) : res bytes :=
  if index key =? 0 then key_to_string public_key_ty key (str "K1") (str "PUB_K1_")
  else if index key =? 1 then key_to_string public_key_ty key (str "R1") (str "PUB_R1_")
  else if index key =? 2 then key_to_string public_key_ty key (str "WA") (str "PUB_WA_")
  else Err E_expected_public_key.
(** src/crypto.cpp:134-148 *)
Definition public_key_from_string (s : bytes) : res val :=
  if starts s (str "EOS") then string_to_key public_key_ty (skipn 3 s) 0 (str "")
  else if starts s (str "PUB_K1_") then string_to_key public_key_ty (skipn 7 s) 0 (str "K1")
  else if starts s (str "PUB_R1_") then string_to_key public_key_ty (skipn 7 s) 1 (str "R1")
  else if starts s (str "PUB_WA_") then string_to_key public_key_ty (skipn 7 s) 2 (str "WA")
  else Err E_expected_public_key.
(** src/crypto.cpp:150-159 *)
Definition private_key_to_string (key : val) : res bytes :=
  if index key =? 0 then key_to_string private_key_ty key (str "K1") (str "PVT_K1_")
  else if index key =? 1 then key_to_string private_key_ty key (str "R1") (str "PVT_R1_")
  else Err E_expected_private_key.
(** src/crypto.cpp:161-177; the last case is the legacy WIF form *)
Definition private_key_from_string (s : bytes) : res val :=
  if starts s (str "PVT_K1_") then string_to_key private_key_ty (skipn 7 s) 0 (str "K1")
  else if starts s (str "PVT_R1_") then string_to_key private_key_ty (skipn 7 s) 1 (str "R1")
  else if starts s (str "PVT_") then Err E_expected_private_key
  else
    let* whole := base58_to_binary s in
    let* _ := check (Nat.leb 5 (List.length whole)) E_expected_private_key in
    convert_from_bin key_env 0 private_key_ty (firstn (List.length whole - 4) (0 :: skipn 1 whole)).
(** src/crypto.cpp:179-190 *)
Definition signature_to_string (key : val) : res bytes :=
  if index key =? 0 then key_to_string signature_ty key (str "K1") (str "SIG_K1_")
  else if index key =? 1 then key_to_string signature_ty key (str "R1") (str "SIG_R1_")
  else if index key =? 2 then key_to_string signature_ty key (str "WA") (str "SIG_WA_")
  else Err E_expected_signature.
(** src/crypto.cpp:192-203 *)
Definition signature_from_string (s : bytes) : res val :=
  if Nat.leb 7 (List.length s) && starts s (str "SIG_K1_") then string_to_key signature_ty (skipn 7 s) 0 (str "K1")
  else if Nat.leb 7 (List.length s) && starts s (str "SIG_R1_") then string_to_key signature_ty (skipn 7 s) 1 (str "R1")
  else if Nat.leb 7 (List.length s) && starts s (str "SIG_WA_") then string_to_key signature_ty (skipn 7 s) 2 (str "WA")
  else Err E_expected_signature.
