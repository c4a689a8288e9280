(** * UTF-8 as rapidjson handles it, and RFC 3629 as its specification.

    /repo/external/rapidjson is an empty submodule in this checkout; the two
    functions of rapidjson/encodings.h that abieos calls ([UTF8<>::Validate] at
    include/eosio/to_json.hpp:40 and inside [IterativeParseNext] at
    include/eosio/from_json.hpp:196, [UTF8<>::Encode] for \u escapes) are modelled
    from the published source of that library. *)
From Verif Require Import Base.

(** ** Model *)
(** rapidjson/encodings.h [UTF8::GetRange]: the 256 entry class table, by ranges. *)
Definition get_range (c : Z) : Z :=
  if c <? 128 then 0
  else if c <? 144 then 16        (* 80..8F *)
  else if c <? 160 then 64        (* 90..9F *)
  else if c <? 192 then 32        (* A0..BF *)
  else if c <? 194 then 8         (* C0 C1 *)
  else if c <? 224 then 2         (* C2..DF *)
  else if c =? 224 then 10        (* E0 *)
  else if c <? 237 then 3         (* E1..EC *)
  else if c =? 237 then 4         (* ED *)
  else if c <? 240 then 3         (* EE EF *)
  else if c =? 240 then 11        (* F0 *)
  else if c <? 244 then 6         (* F1..F3 *)
  else if c =? 244 then 5         (* F4 *)
  else 8.                         (* F5..FF *)
(** [RAPIDJSON_TRANS(mask)] applied to the byte at offset [i]; reading past the
    data gives the NUL terminator (from_json) or the zero padding of
    [stream_adaptor] (include/eosio/to_json.hpp:18-27). *)
Definition trans (mask : Z) (i : nat) (b : bytes) : bool :=
  negb (Z.land (get_range (nth i b 0)) mask =? 0).
(** RAPIDJSON_TAIL() *)
Definition tail_at (i : nat) (b : bytes) : bool := trans 112 i b.
(** [UTF8::Validate]: the number of bytes of the first character, or [None]. *)
Definition utf8_validate (b : bytes) : option nat :=
  let c := nth 0 b 0 in
  if c <? 128 then Some 1%nat
  else
    let ok (r : bool) (n : nat) := if r then Some n else None in
    let r := get_range c in
    if r =? 2 then ok (tail_at 1 b) 2%nat
    else if r =? 3 then ok (tail_at 1 b && tail_at 2 b) 3%nat
    else if r =? 4 then ok (trans 80 1 b && tail_at 2 b) 3%nat
    else if r =? 5 then ok (trans 16 1 b && tail_at 2 b && tail_at 3 b) 4%nat
    else if r =? 6 then ok (tail_at 1 b && tail_at 2 b && tail_at 3 b) 4%nat
    else if r =? 10 then ok (trans 32 1 b && tail_at 2 b) 3%nat
    else if r =? 11 then ok (trans 96 1 b && tail_at 2 b && tail_at 3 b) 4%nat
    else None.
(** rapidjson/encodings.h [UTF8::Encode] *)
Definition utf8_encode (cp : Z) : bytes :=
  if cp <=? 127 then [cp]
  else if cp <=? 2047 then
    [Z.lor 192 (Z.shiftr cp 6); Z.lor 128 (Z.land cp 63)]
  else if cp <=? 65535 then
    [Z.lor 224 (Z.shiftr cp 12); Z.lor 128 (Z.land (Z.shiftr cp 6) 63); Z.lor 128 (Z.land cp 63)]
  else
    [Z.lor 240 (Z.shiftr cp 18); Z.lor 128 (Z.land (Z.shiftr cp 12) 63);
     Z.lor 128 (Z.land (Z.shiftr cp 6) 63); Z.lor 128 (Z.land cp 63)].

(** ** Specification: RFC 3629 *)
(** Unicode scalar values: everything but the surrogates. *)
Definition scalar (cp : Z) : Prop := 0 <= cp < 55296 \/ 57344 <= cp < 1114112.
(** The UTF-8 form of a code point. *)
Definition utf8_enc (cp : Z) : bytes :=
  if cp <? 128 then [cp]
  else if cp <? 2048 then [192 + cp / 64; 128 + cp mod 64]
  else if cp <? 65536 then [224 + cp / 4096; 128 + (cp / 64) mod 64; 128 + cp mod 64]
  else [240 + cp / 262144; 128 + (cp / 4096) mod 64; 128 + (cp / 64) mod 64; 128 + cp mod 64].
(** Well formed UTF-8 text: the forms of a sequence of scalar values. *)
Inductive utf8 : bytes -> Prop :=
| utf8_nil : utf8 []
| utf8_cons cp b : scalar cp -> utf8 b -> utf8 (utf8_enc cp ++ b).

(** ** Facts *)
Lemma lor_add_64 a k : 0 <= a < 64 -> 0 <= k -> Z.lor (128 + 64 * k) a = 128 + 64 * k + a.
Proof.
  intros Ha Hk.
  rewrite <- Z.lxor_lor, <- Z.add_nocarry_lxor; try reflexivity.
  all: apply Z.bits_inj'; intros n Hn; rewrite Z.land_spec, Z.bits_0.
  all: destruct (Z.ltb_spec n 6) as [L|L].
  1,3: replace (128 + 64 * k) with ((2 + k) * 2 ^ 6) by (change (2^6) with 64; ring);
       rewrite Z.mul_pow2_bits_low by lia; reflexivity.
  all: replace (Z.testbit a n) with false; [apply andb_false_r|].
  all: symmetry; destruct (Z.eq_dec a 0) as [->|Hz]; [apply Z.bits_0|].
  all: apply Z.bits_above_log2; [lia|].
  all: apply Z.lt_le_trans with 6; [|lia]; apply Z.log2_lt_pow2; [lia|]; change (2^6) with 64; lia.
Qed.
Lemma encode_eq cp : 0 <= cp < 1114112 -> utf8_encode cp = utf8_enc cp.
Proof.
  intros H. unfold utf8_encode, utf8_enc.
  rewrite !Z.shiftr_div_pow2 by lia.
  change (2^6) with 64. change (2^12) with 4096. change (2^18) with 262144.
  assert (M : forall x, Z.land x 63 = x mod 64) by (intro x; change 63 with (Z.ones 6); rewrite Z.land_ones by lia; reflexivity).
  rewrite !M.
  assert (A : forall x, Z.lor 128 (x mod 64) = 128 + x mod 64).
  { intro x. change 128 with (128 + 64 * 0) at 1. rewrite lor_add_64; [lia | apply Z.mod_pos_bound; lia | lia]. }
  rewrite !A.
  destruct (Z.leb_spec cp 127); destruct (Z.ltb_spec cp 128); try lia; auto.
  destruct (Z.leb_spec cp 2047); destruct (Z.ltb_spec cp 2048); try lia; auto.
  { f_equal. change 192 with (128 + 64 * 1) at 1. rewrite lor_add_64; lia. }
  destruct (Z.leb_spec cp 65535); destruct (Z.ltb_spec cp 65536); try lia; auto.
  { f_equal. assert (0 <= cp / 4096 < 16) by lia.
    set (x := cp / 4096) in *.
    assert (E : forallb (fun x => Z.lor 224 x =? 224 + x) (map Z.of_nat (seq 0 16)) = true) by reflexivity.
    rewrite forallb_forall in E. apply Z.eqb_eq, E, in_map_iff. exists (Z.to_nat x). split; [lia|]. apply in_seq. lia. }
  { f_equal. assert (0 <= cp / 262144 < 16) by lia.
    set (x := cp / 262144) in *. assert (x < 8) by lia.
    assert (E : forallb (fun x => Z.lor 240 x =? 240 + x) (map Z.of_nat (seq 0 8)) = true) by reflexivity.
    rewrite forallb_forall in E. apply Z.eqb_eq, E, in_map_iff. exists (Z.to_nat x). split; [lia|]. apply in_seq. lia. }
Qed.

Lemma trans_spec i b :
  (trans 112 i b = (128 <=? nth i b 0) && (nth i b 0 <? 192)) /\
  (trans 80 i b = (128 <=? nth i b 0) && (nth i b 0 <? 160)) /\
  (trans 16 i b = (128 <=? nth i b 0) && (nth i b 0 <? 144)) /\
  (trans 32 i b = (160 <=? nth i b 0) && (nth i b 0 <? 192)) /\
  (trans 96 i b = (144 <=? nth i b 0) && (nth i b 0 <? 192)).
Proof.
  unfold trans, get_range. generalize (nth i b 0); intro c.
  repeat match goal with |- context [if ?x <? ?y then _ else _] => destruct (Z.ltb_spec x y)
                       | |- context [if ?x =? ?y then _ else _] => destruct (Z.eqb_spec x y) end;
  cbn [Z.land Pos.land N.double Z.of_N Pos.Nsucc_double Pos.Ndouble Z.eqb negb Pos.land Pos.eqb]; lia.
Qed.

Lemma utf8_enc_ok cp : 0 <= cp < 1114112 -> bytes_ok (utf8_enc cp).
Proof.
  intros H. unfold utf8_enc, bytes_ok, is_byte.
  destruct (Z.ltb_spec cp 128); [repeat constructor; lia|].
  destruct (Z.ltb_spec cp 2048); [repeat constructor; lia|].
  destruct (Z.ltb_spec cp 65536); repeat constructor; lia.
Qed.

(** [Validate] accepts every encoded scalar value, whatever follows. *)
Lemma validate_complete cp b :
  scalar cp -> utf8_validate (utf8_enc cp ++ b) = Some (List.length (utf8_enc cp)).
Proof.
  intros H. unfold utf8_enc, scalar in *.
  unfold utf8_validate, tail_at, get_range.
  destruct (Z.ltb_spec cp 128); [|destruct (Z.ltb_spec cp 2048); [|destruct (Z.ltb_spec cp 65536)]].
  all: rewrite ?(proj1 (trans_spec _ _)), ?(proj1 (proj2 (trans_spec _ _))),
       ?(proj1 (proj2 (proj2 (trans_spec _ _)))),
       ?(proj1 (proj2 (proj2 (proj2 (trans_spec _ _))))),
       ?(proj2 (proj2 (proj2 (proj2 (trans_spec _ _))))).
  all: cbn [nth app List.length].
  all: repeat match goal with
         | |- context [if ?x <? ?y then _ else _] =>
             lazymatch x with context [if _ then _ else _] => fail | _ => destruct (Z.ltb_spec x y); try lia end
         | |- context [if ?x =? ?y then _ else _] =>
             lazymatch x with context [if _ then _ else _] => fail | Z0 => fail | Zpos _ => fail
                             | _ => destruct (Z.eqb_spec x y); try lia end end;
       cbn [Z.eqb Pos.eqb]; try reflexivity;
       match goal with |- (if ?c then _ else _) = _ => assert (Hc : c = true) by lia; rewrite Hc; reflexivity end.
Qed.

(** ... and nothing else. *)
Lemma validate_sound b n :
  bytes_ok b -> b <> [] -> utf8_validate b = Some n ->
  exists cp r, scalar cp /\ b = utf8_enc cp ++ r /\ n = List.length (utf8_enc cp).
Proof.
  intros Hb Hne H.
  destruct b as [|c0 b]; [congruence|]. clear Hne.
  inversion Hb as [|? ? Hc0 Hb']; subst.
  unfold utf8_validate, tail_at in H.
  rewrite ?(proj1 (trans_spec _ _)), ?(proj1 (proj2 (trans_spec _ _))),
       ?(proj1 (proj2 (proj2 (trans_spec _ _)))),
       ?(proj1 (proj2 (proj2 (proj2 (trans_spec _ _))))),
       ?(proj2 (proj2 (proj2 (proj2 (trans_spec _ _))))) in H.
  cbn [nth] in H. unfold is_byte in *.
  assert (Enc1 : 0 <= c0 < 128 -> exists cp r, scalar cp /\ c0 :: b = utf8_enc cp ++ r /\ 1%nat = List.length (utf8_enc cp)).
  { intros L. exists c0, b. unfold scalar, utf8_enc. destruct (Z.ltb_spec c0 128); [|lia].
    repeat split; lia. }
  assert (Enc2 : forall c1 b1, b = c1 :: b1 -> 194 <= c0 < 224 -> 128 <= c1 < 192 ->
     exists cp r, scalar cp /\ c0 :: b = utf8_enc cp ++ r /\ 2%nat = List.length (utf8_enc cp)).
  { intros c1 b1 -> L0 L1. exists ((c0 - 192) * 64 + (c1 - 128)), b1. unfold scalar, utf8_enc.
    destruct (Z.ltb_spec ((c0 - 192) * 64 + (c1 - 128)) 128); [lia|].
    destruct (Z.ltb_spec ((c0 - 192) * 64 + (c1 - 128)) 2048); [|lia].
    repeat split; [lia|]. cbn [app]. repeat f_equal; lia. }
  assert (Enc3 : forall c1 c2 b1, b = c1 :: c2 :: b1 -> 224 <= c0 < 240 -> 128 <= c1 < 192 -> 128 <= c2 < 192 ->
     (c0 = 224 -> 160 <= c1) -> (c0 = 237 -> c1 < 160) ->
     exists cp r, scalar cp /\ c0 :: b = utf8_enc cp ++ r /\ 3%nat = List.length (utf8_enc cp)).
  { intros c1 c2 b1 -> L0 L1 L2 X1 X2. exists ((c0 - 224) * 4096 + (c1 - 128) * 64 + (c2 - 128)), b1. unfold scalar, utf8_enc.
    set (cp := (c0 - 224) * 4096 + (c1 - 128) * 64 + (c2 - 128)).
    assert (cp / 4096 = c0 - 224 /\ (cp / 64) mod 64 = c1 - 128 /\ cp mod 64 = c2 - 128) as (E1 & E2 & E3) by lia.
    destruct (Z.ltb_spec cp 128); [lia|].
    destruct (Z.ltb_spec cp 2048); [lia|].
    destruct (Z.ltb_spec cp 65536); [|lia].
    rewrite E1, E2, E3.
    repeat split; [lia|]. cbn [app]. repeat f_equal; lia. }
  assert (Enc4 : forall c1 c2 c3 b1, b = c1 :: c2 :: c3 :: b1 -> 240 <= c0 < 245 -> 128 <= c1 < 192 -> 128 <= c2 < 192 ->
     128 <= c3 < 192 ->
     (c0 = 240 -> 144 <= c1) -> (c0 = 244 -> c1 < 144) ->
     exists cp r, scalar cp /\ c0 :: b = utf8_enc cp ++ r /\ 4%nat = List.length (utf8_enc cp)).
  { intros c1 c2 c3 b1 -> L0 L1 L2 L3 X1 X2.
    exists ((c0 - 240) * 262144 + (c1 - 128) * 4096 + (c2 - 128) * 64 + (c3 - 128)), b1. unfold scalar, utf8_enc.
    set (cp := (c0 - 240) * 262144 + (c1 - 128) * 4096 + (c2 - 128) * 64 + (c3 - 128)).
    assert (cp / 262144 = c0 - 240 /\ (cp / 4096) mod 64 = c1 - 128 /\ (cp / 64) mod 64 = c2 - 128 /\ cp mod 64 = c3 - 128) as (E1 & E2 & E3 & E4) by lia.
    destruct (Z.ltb_spec cp 128); [lia|].
    destruct (Z.ltb_spec cp 2048); [lia|].
    destruct (Z.ltb_spec cp 65536); [lia|].
    rewrite E1, E2, E3, E4.
    repeat split; [lia|]. cbn [app]. repeat f_equal; lia. }
  unfold get_range in H.
  repeat match type of H with
    | context [if ?x <? ?y then _ else _] =>
        lazymatch x with context [if _ then _ else _] => fail | _ => destruct (Z.ltb_spec x y); try lia end
    | context [if ?x =? ?y then _ else _] =>
        lazymatch x with context [if _ then _ else _] => fail | Z0 => fail | Zpos _ => fail
                        | _ => destruct (Z.eqb_spec x y); try lia end
    end; cbn [Z.eqb Pos.eqb] in H; try discriminate H;
  try (assert (n = 1%nat) by congruence; subst; apply Enc1; lia).
  all: match type of H with (if ?c then _ else _) = _ => destruct c eqn:Hc; [|discriminate H] end;
       injection H as <-;
       destruct b as [|c1 b]; cbn [nth] in Hc; [exfalso; clear - Hc; lia|].
  1: { eapply Enc2; eauto; lia. }
  all: destruct b as [|c2 b]; cbn [nth] in Hc; [exfalso; clear - Hc; lia|].
  all: try (eapply Enc3; eauto; lia).
  all: destruct b as [|c3 b]; cbn [nth] in Hc; [exfalso; clear - Hc; lia|].
  all: eapply Enc4; eauto; lia.
Qed.

Lemma utf8_enc_nonempty cp : utf8_enc cp <> [].
Proof.
  unfold utf8_enc. destruct (cp <? 128); [discriminate|]. destruct (cp <? 2048); [discriminate|].
  destruct (cp <? 65536); discriminate.
Qed.
Lemma utf8_enc_length cp : (1 <= List.length (utf8_enc cp) <= 4)%nat.
Proof.
  unfold utf8_enc. destruct (cp <? 128); [cbn; lia|]. destruct (cp <? 2048); [cbn; lia|].
  destruct (cp <? 65536); cbn; lia.
Qed.
Lemma utf8_app a b : utf8 a -> utf8 b -> utf8 (a ++ b).
Proof. induction 1; intros; cbn; auto. rewrite <- app_assoc. constructor; auto. Qed.
Lemma utf8_ascii b : Forall (fun c => 0 <= c < 128) b -> utf8 b.
Proof.
  induction 1 as [|c b Hc Hb IH]; [constructor|].
  change (c :: b) with ([c] ++ b).
  replace [c] with (utf8_enc c); [constructor; auto; unfold scalar; lia|].
  unfold utf8_enc. destruct (Z.ltb_spec c 128); [auto|lia].
Qed.
Lemma utf8_bytes_ok b : utf8 b -> bytes_ok b.
Proof.
  induction 1; [auto|]. apply bytes_ok_app; split; auto. apply utf8_enc_ok. unfold scalar in *; lia.
Qed.
