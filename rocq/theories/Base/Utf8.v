(** * UTF-8 decoding, as done by [bytes.decode('utf-8')] with [errors='strict'] and ['replace'] *)

From Verif Require Export Base.Py.

(** One decoding step: a code point and the number of bytes it takes, or the number of bytes of
    the maximal invalid part. *)
Inductive ustep := UGood (cp : N) (n : nat) | UBad (n : nat).

Definition is_cont (b : byte) : bool := (128 <=? b2n b) && (b2n b <? 192).

Definition utf8_step (b0 : byte) (t : bytes) : ustep :=
  let c0 := b2n b0 in
  if c0 <? 128 then UGood c0 1
  else if c0 <? 194 then UBad 1
  else if c0 <? 224 then
    match t with
    | b1 :: _ => if is_cont b1 then UGood ((c0 - 192) * 64 + (b2n b1 - 128)) 2 else UBad 1
    | [] => UBad 1
    end
  else if c0 <? 240 then
    match t with
    | b1 :: t1 =>
      if is_cont b1 && negb ((c0 =? 224) && (b2n b1 <? 160)) && negb ((c0 =? 237) && (160 <=? b2n b1)) then
        match t1 with
        | b2 :: _ => if is_cont b2 then UGood ((c0 - 224) * 4096 + (b2n b1 - 128) * 64 + (b2n b2 - 128)) 3
                     else UBad 2
        | [] => UBad 2
        end
      else UBad 1
    | [] => UBad 1
    end
  else if c0 <? 245 then
    match t with
    | b1 :: t1 =>
      if is_cont b1 && negb ((c0 =? 240) && (b2n b1 <? 144)) && negb ((c0 =? 244) && (144 <=? b2n b1)) then
        match t1 with
        | b2 :: t2 =>
          if is_cont b2 then
            match t2 with
            | b3 :: _ =>
              if is_cont b3
              then UGood ((c0 - 240) * 262144 + (b2n b1 - 128) * 4096 + (b2n b2 - 128) * 64 + (b2n b3 - 128)) 4
              else UBad 3
            | [] => UBad 3
            end
          else UBad 2
        | [] => UBad 2
        end
      else UBad 1
    | [] => UBad 1
    end
  else UBad 1.

Fixpoint utf8_strict_fuel (fuel : nat) (b : bytes) : result str :=
  match fuel, b with
  | _, [] => Ok []
  | O, _ => Err RuntimeError
  | S f, x :: t =>
    match utf8_step x t with
    | UGood cp n => let! s := utf8_strict_fuel f (skipn n b) in Ok (cp :: s)
    | UBad _ => Err UnicodeDecodeError
    end
  end.
(** [b.decode('utf-8')] *)
Definition utf8_dec (b : bytes) : result str := utf8_strict_fuel (length b) b.

Fixpoint utf8_replace_fuel (fuel : nat) (b : bytes) : str :=
  match fuel, b with
  | _, [] => []
  | O, _ => []
  | S f, x :: t =>
    match utf8_step x t with
    | UGood cp n => cp :: utf8_replace_fuel f (skipn n b)
    | UBad n => 65533 :: utf8_replace_fuel f (skipn n b)
    end
  end.
(** [b.decode('utf-8', 'replace')] *)
Definition utf8_dec_replace (b : bytes) : str := utf8_replace_fuel (length b) b.
