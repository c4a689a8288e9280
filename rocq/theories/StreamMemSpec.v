(** What the streams are to do, said of lists of bytes. *)
From Verif Require Import Base StreamMem.

Definition op_bytes (o : wop) : bytes := match o with WChar c => [c] | WBlock l => l end.
Definition len (l : bytes) : Z := Z.of_nat (List.length l).
(** Of a series of writes into [room] bytes: those which fit into what the ones before have left. *)
Fixpoint fitting (room : Z) (l : list wop) : list (bool * bytes) :=
  match l with
  | [] => []
  | o :: l' => let n := len (op_bytes o) in
               if n <=? room then (true, op_bytes o) :: fitting (room - n) l' else (false, []) :: fitting room l'
  end.
Definition outcome (fits : bool) : res unit := if fits then Ok tt else Err E_overrun.
(** Memory [m'] is [m] with [l] at [a]. *)
Definition holds (m m' : memory) (a : Z) (l : bytes) : Prop :=
  (forall i, (i < List.length l)%nat -> nth_error l i = Some (m' (a + Z.of_nat i))) /\
  (forall x, x < a \/ a + len l <= x -> m' x = m x).

(** The answers of an input_stream at [start] over [data] of which [used] bytes have been taken. *)
Definition read_answer (start : Z) (data : bytes) (used : Z) (o : rop) : res given * Z :=
  let rest := skipn (Z.to_nat used) data in
  let if_fits n g taken := if used + n <=? len data then (Ok g, used + taken) else (Err E_overrun, used) in
  match o with
  | Remaining => (Ok (Count (len data - used)), used)
  | GetPos => (Ok (Address (start + used)), used)
  | CheckAvailable n => if_fits n Nothing 0
  | Read n => if_fits n (Copied (firstn (Z.to_nat n) rest)) n
  | Skip n => if_fits n Nothing n
  | ReuseStorage n => if_fits n (Address (start + used)) n
  end.
Fixpoint read_answers (start : Z) (data : bytes) (used : Z) (l : list rop) : list (res given) * Z :=
  match l with
  | [] => ([], used)
  | o :: l' => let (r, u) := read_answer start data used o in let (rs, u) := read_answers start data u l' in (r :: rs, u)
  end.
Definition rop_size (o : rop) : Z := match o with CheckAvailable n | Read n | Skip n | ReuseStorage n => n | _ => 0 end.
