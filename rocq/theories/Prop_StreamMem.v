(** C69: the streams in memory, under any series of operations with failures caught. *)
From Verif Require Import Base Stream StreamFacts TypedBin TypedSpec TypedBinFacts ToKey StreamMem StreamMemSpec StreamMemFacts Prop_Bin.

(** Reading. The buffer is [start, e); sizes are what a size_t can be. *)
Theorem C69_reads : forall m start e ops, 0 <= start <= e -> e < 2 ^ 64 -> (forall o, In o ops -> 0 <= rop_size o < 2 ^ 64) ->
  let (answers, used) := read_answers start (load m start (Z.to_nat (e - start))) 0 ops in
  read_ops m ops (IBuf start e) = (answers, IBuf (start + used) e) /\ 0 <= used <= e - start.
Proof.
  intros m start e ops S0 E N. pose proof (read_ops_spec m start e ops ltac:(lia) N 0 ltac:(lia) ltac:(lia)) as H.
  rewrite Z.add_0_r in H. exact H.
Qed.
Print Assumptions C69_reads.
(** What is read does not depend on anything outside the buffer. *)
Theorem C69_reads_inside : forall m m' start e ops, 0 <= start <= e -> e < 2 ^ 64 -> (forall o, In o ops -> 0 <= rop_size o < 2 ^ 64) ->
  (forall x, start <= x < e -> m x = m' x) -> read_ops m ops (IBuf start e) = read_ops m' ops (IBuf start e).
Proof.
  intros m m' start e ops S0 E N H.
  assert (L : load m start (Z.to_nat (e - start)) = load m' start (Z.to_nat (e - start))).
  { assert (G : forall n a, start <= a -> a + Z.of_nat n <= e -> load m a n = load m' a n).
    { induction n as [|n IH]; intros a A B; cbn [load]; [reflexivity|]. rewrite H by lia. f_equal. apply IH; lia. }
    apply G; lia. }
  pose proof (C69_reads m start e ops S0 E N) as X. pose proof (C69_reads m' start e ops S0 E N) as Y. rewrite <- L in Y.
  destruct (read_answers start (load m start (Z.to_nat (e - start))) 0 ops) as [rs u]. destruct X as [-> _], Y as [-> _]. reflexivity.
Qed.
Print Assumptions C69_reads_inside.
(** An operation that throws leaves the stream as it was; it throws when and only when more is asked for than there is. *)
Theorem C69_failed_read : forall m o start e, 0 <= start <= e -> e < 2 ^ 64 -> 0 <= rop_size o ->
  forall r k, read_op m o (IBuf start e) = (r, k) ->
  (rop_size o <= e - start <-> exists g, r = Ok g) /\ (e - start < rop_size o -> r = Err E_overrun /\ k = IBuf start e).
Proof.
  intros m o start e S0 E N r k H.
  assert (R : remaining (IBuf start e) = e - start) by (unfold remaining; cbn [ipos iend]; now rewrite Z.mod_small by lia).
  unfold read_op in H. rewrite R in H.
  assert (G : forall n g b, (if n <=? e - start then (Ok g, b) else (Err E_overrun, IBuf start e)) = (r, k) ->
    (n <= e - start <-> exists g, r = Ok g) /\ (e - start < n -> r = Err E_overrun /\ k = IBuf start e)).
  { intros n g b X. destruct (Z.leb_spec n (e - start)); injection X as <- <-.
    - split; [split; [eauto|intros; assumption]|lia].
    - split; [split; [lia|intros [g' Y]; discriminate Y]|auto]. }
  destruct o as [|n| |n|n|n]; cbn [rop_size fst snd] in *.
  - injection H as <- <-. split; [split; [eauto|lia]|lia].
  - exact (G _ _ _ H).
  - injection H as <- <-. split; [split; [eauto|lia]|lia].
  - exact (G _ _ _ H).
  - exact (G _ _ _ H).
  - exact (G _ _ _ H).
Qed.
Print Assumptions C69_failed_read.

(** Writing into [a, e). A write succeeds when and only when it fits behind those that succeeded before it. Afterwards the buffer holds the
    bytes of the successful ones, one after the other, [pos] is behind them, and no other byte of the memory has changed. *)
Theorem C69_writes : forall m a e ops, 0 <= a <= e -> (forall o, In o ops -> e + len (op_bytes o) < 2 ^ 64) -> e < 2 ^ 64 ->
  let written := concat (map snd (fitting (e - a) ops)) in
  exists m', write_ops ops (Buf m a e) = (map (fun x => outcome (fst x)) (fitting (e - a) ops), Buf m' (a + len written) e) /\
    holds m m' a written /\ a + len written <= e.
Proof.
  intros m a e ops A0 L E written.
  destruct (write_ops_spec ops m a (Buf m a e) [] (holds_nil m a)) as ([m' p' e'] & W & E' & H & P & B); cbn [opos oend mem app] in *; try lia; try assumption.
  { unfold len. cbn. lia. }
  subst e' p'. exists m'. auto.
Qed.
Print Assumptions C69_writes.
(** vector_stream and size_stream: everything is appended, and counted modulo 2^64; if there is room for all of it, a fixed_buf_stream takes it all. *)
Theorem C69_vector_and_size : forall ops,
  let all := concat (map op_bytes ops) in
  (forall d, fold_left (fun d o => vector_op o d) ops d = d ++ all) /\
  (forall n, 0 <= n < 2 ^ 64 -> fold_left (fun n o => size_op o n) ops n = (n + len all) mod 2 ^ 64) /\
  (forall room, len all <= room -> fitting room ops = map (fun o => (true, op_bytes o)) ops).
Proof.
  induction ops as [|o ops IH]; cbn [map concat fold_left fitting]; cbv zeta in *.
  - split; [intros; now rewrite app_nil_r|]. split; [|reflexivity]. intros n N. unfold len. cbn. now rewrite Z.add_0_r, Z.mod_small.
  - destruct IH as (V & S0 & F). split; [|split].
    + intros d. rewrite V. destruct o; cbn [vector_op op_bytes]; now rewrite <- app_assoc.
    + intros n N. rewrite S0 by (destruct o; cbn [size_op]; now apply Z.mod_pos_bound).
      rewrite len_app. assert (Sz : size_op o n = (n + len (op_bytes o)) mod 2 ^ 64) by (destruct o; reflexivity).
      rewrite Sz, Zplus_mod_idemp_l. f_equal. lia.
    + intros room R. rewrite len_app in R. pose proof (len_nonneg (concat (map op_bytes ops))).
      destruct (Z.leb_spec (len (op_bytes o)) room); [|lia]. f_equal. apply F. lia.
Qed.
Print Assumptions C69_vector_and_size.

(** A value encoded into a buffer, as data or as a key: with enough room the encoding stands at its beginning; else it throws Stream overrun, and what it has written by then is
    a beginning of the encoding. In both cases nothing else is touched. *)
Theorem C69_encoding_in_memory : forall env fuel t v bin m a e, to_bin vector_stream env fuel t v [] = Ok bin ->
  0 <= a <= e -> e + len bin < 2 ^ 64 ->
  exists m' x written rest, to_bin mem_stream env fuel t v (Buf m a e, None) = Ok (Buf m' (a + len written) e, x) /\
    bin = written ++ rest /\ holds m m' a written /\ a + len written <= e /\
    (len bin <= e - a -> x = None /\ rest = []) /\ (e - a < len bin -> x = Some E_overrun).
Proof. intros env fuel t v bin m a e. exact (in_memory (fun S => to_bin S env fuel t v) bin m a e (pc_to_bin env fuel t v)). Qed.
Print Assumptions C69_encoding_in_memory.
Theorem C69_key_in_memory : forall env fuel t v key m a e, to_key env fuel t vector_stream v [] = Ok key ->
  0 <= a <= e -> e + len key < 2 ^ 64 ->
  exists m' x written rest, to_key env fuel t mem_stream v (Buf m a e, None) = Ok (Buf m' (a + len written) e, x) /\
    key = written ++ rest /\ holds m m' a written /\ a + len written <= e /\
    (len key <= e - a -> x = None /\ rest = []) /\ (e - a < len key -> x = Some E_overrun).
Proof. intros env fuel t v key m a e. exact (in_memory (fun S => to_key env fuel t S v) key m a e (pc_to_key env fuel t v)). Qed.
Print Assumptions C69_key_in_memory.

(** convert_to_bin and convert_to_key append to a vector by two passes through pointers: the encoding is behind the old contents, and if it throws the vector is as it was. *)
Theorem C69_convert_to_bin : forall env fuel t v old,
  (forall bin, to_bin vector_stream env fuel t v [] = Ok bin -> len old + len bin + len bin < 2 ^ 64 -> convert_to_bin_into env fuel t v old = (Ok tt, old ++ bin)) /\
  (forall err, to_bin vector_stream env fuel t v [] = Err err -> convert_to_bin_into env fuel t v old = (Err err, old)).
Proof. intros env fuel t v old. exact (two_passes_spec (fun S => to_bin S env fuel t v) old (pc_to_bin env fuel t v)). Qed.
Print Assumptions C69_convert_to_bin.
Theorem C69_convert_to_key : forall env fuel t v old,
  (forall key, to_key env fuel t vector_stream v [] = Ok key -> len old + len key + len key < 2 ^ 64 -> convert_to_key_into env fuel t v old = (Ok tt, old ++ key)) /\
  (forall err, to_key env fuel t vector_stream v [] = Err err -> convert_to_key_into env fuel t v old = (Err err, old)).
Proof. intros env fuel t v old. exact (two_passes_spec (fun S => to_key env fuel t S v) old (pc_to_key env fuel t v)). Qed.
Print Assumptions C69_convert_to_key.

(** The test of fixed_buf_stream::write adds before it compares: near the end of the address space the sum wraps, and the write succeeds though it does not fit. *)
Theorem C69_write_inside_refuted : forall m, exists a e o x, 0 <= a <= e /\ e < 2 ^ 64 /\ ~ a <= x < e /\
  let (r, b) := write_op o (Buf m a e) in r = Ok tt /\ mem b x <> m x.
Proof.
  intros m. exists (2 ^ 64 - 4), (2 ^ 64 - 2), (WBlock [0; 0; m (2 ^ 64 - 2) + 1; 0; 0; 0]), (2 ^ 64 - 2).
  split; [lia|]. split; [lia|]. split; [lia|]. split; [reflexivity|]. change (m (2 ^ 64 - 2) + 1 <> m (2 ^ 64 - 2)). lia.
Qed.
Print Assumptions C69_write_inside_refuted.

Example C69_example_reads :
  read_ops (fun x => x - 1000) [Remaining; Read 2; Skip 4; Read 3; ReuseStorage 1; CheckAvailable 3; Read (2 ^ 64 - 1); Read 2; GetPos; Remaining] (IBuf 1001 1010) =
  ([Ok (Count 9); Ok (Copied [1; 2]); Ok Nothing; Ok (Copied [7; 8; 9]); Err E_overrun; Err E_overrun; Err E_overrun; Err E_overrun; Ok (Address 1010); Ok (Count 0)], IBuf 1010 1010).
Proof. reflexivity. Qed.
Example C69_example_writes : fitting 5 [WBlock [1; 2]; WBlock [3; 4; 5; 6]; WChar 7; WBlock [8; 9]; WChar 1] = [(true, [1; 2]); (false, []); (true, [7]); (true, [8; 9]); (false, [])].
Proof. reflexivity. Qed.
Example C69_example_encoding : exists m', to_bin mem_stream node_env 0 (TVec TString) (VList [VStr (str "ab"); VStr (str "cde")]) (Buf (fun _ => 0) 100 106, None) = Ok (Buf m' 105 106, Some E_overrun) /\
  load m' 99 8 = [0; 2; 2; 97; 98; 3; 0; 0].
Proof. eexists. split; reflexivity. Qed.
Example C69_example_convert : convert_to_bin_into node_env 0 (TVec TString) (VList [VStr (str "ab"); VStr []]) [9] = (Ok tt, [9; 2; 2; 97; 98; 0]).
Proof. reflexivity. Qed.
Example C69_example_key : convert_to_key_into node_env 0 (TVec TString) (VList [VStr (str "ab"); VStr [0]]) [9] = (Ok tt, [9; 1; 97; 98; 0; 0; 1; 0; 1; 0; 0; 0]).
Proof. reflexivity. Qed.
