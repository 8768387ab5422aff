(** * cdtb/rstfile.py: string tables

    Parameters: [xxh3], [xxh64] are [xxhash.xxh3_64_intdigest] and [xxh64_intdigest] on text, [plower]
    is [str.lower] on any Unicode text.  Not modelled: opening the file by name (rstfile.py:35-37; the
    parser gets the content), and [get_hashfile] / the two hash list objects (lines 7-11, 22-23). *)

From Verif Require Export Base.Text Base.Bin Base.Utf8.

(** Python's [base64.b64encode] followed by an ASCII decoding. *)
Definition b64_char (v : N) : N :=
  if v <? 26 then 65 + v else if v <? 52 then 71 + v else if v <? 62 then v - 4 else if v =? 62 then 43 else 47.
Fixpoint b64encode (b : bytes) : str :=
  match b with
  | [] => []
  | [x] => let n := b2n x * 65536 in
           [b64_char (n / 262144); b64_char (n / 4096 mod 64); 61; 61]
  | [x; y] => let n := b2n x * 65536 + b2n y * 256 in
              [b64_char (n / 262144); b64_char (n / 4096 mod 64); b64_char (n / 64 mod 64); 61]
  | x :: y :: z :: t =>
    let n := b2n x * 65536 + b2n y * 256 + b2n z in
    b64_char (n / 262144) :: b64_char (n / 4096 mod 64) :: b64_char (n / 64 mod 64) :: b64_char (n mod 64) :: b64encode t
  end.

(** rstfile.py:26-31: attributes of a parsed file. *)
Record rst := { r_font : option str; r_entries : list (N * str); r_bits : N; r_version : N; r_game : N }.

(** A key is a string, an integer, or something else (for which [&] raises TypeError). *)
Inductive rkey := RStr (s : str) | RInt (z : Z) | ROther.

Section Rst.
Variable xxh3 : str -> N.
Variable xxh64 : str -> N.
Variable plower : str -> str.

(** rstfile.py:13-19 *)
Definition key_to_hash (key : rkey) (bits version : N) : result N :=
  match key with
  | RStr s => Ok (N.land (if 1415 <=? version then xxh3 (plower s) else xxh64 (plower s)) (N.shiftl 1 bits - 1))
  | RInt z => Ok (Z.to_N (Z.land z (Z.of_N (N.shiftl 1 bits - 1))))
  | ROther => Err TypeError
  end.

(** rstfile.py:42-47 *)
Definition rst_getitem (r : rst) (key : rkey) : result str :=
  match key_to_hash key (r_bits r) (r_game r) with
  | Ok h => of_opt KeyError (dget h (r_entries r))
  | Err TypeError => Err KeyError
  | Err e => Err e
  end.
(** rstfile.py:49-54 *)
Definition rst_contains (r : rst) (key : rkey) : result bool :=
  match key_to_hash key (r_bits r) (r_game r) with
  | Ok h => Ok (dhas h (r_entries r))
  | Err TypeError => Ok false
  | Err e => Err e
  end.
(** rstfile.py:56-60 *)
Definition rst_get (r : rst) (key : rkey) (default : option str) : result (option str) :=
  match rst_getitem r key with
  | Ok v => Ok (Some v)
  | Err KeyError => Ok default
  | Err e => Err e
  end.
End Rst.

(** rstfile.py:102-109: the text at offset [i] of the data. *)
Definition rst_text (has_trenc : bool) (data : bytes) (i : N) : result str :=
  let plain :=
    let end_ := match find_ch x00 (dropN i data) with Some k => Z.of_N (i + k) | None => (-1)%Z end in
    Ok (utf8_dec_replace (py_slice data (Z.of_N i) end_)) in
  if has_trenc then
    match nthN data i with
    | None => Err IndexError
    | Some x =>
      if b2n x =? 255 then
        let size := ledec (takeN 2 (dropN (i + 1) data)) in
        Ok (b64encode (takeN size (dropN (i + 3) data)))
      else plain
    end
  else plain.

(** rstfile.py:101-109 *)
Fixpoint rst_fill (has_trenc : bool) (data : bytes) (es : list (N * N)) (d : list (N * str)) : result (list (N * str)) :=
  match es with
  | [] => Ok d
  | (i, h) :: es' => let! t := rst_text has_trenc data i in rst_fill has_trenc data es' (dset h t d)
  end.

(** rstfile.py:62-109 *)
Definition parse_rst (game : N) : P rst :=
  let* magic := punpack 3 in
  let* version := u8 in
  if negb (eqb magic (bl "RST")) then praise ValueError else
  let* fb :=
    (if version =? 2 then
       let* c := u8 in
       if negb (c =? 0) then
         let* n := u32 in
         let* raw := pread n in
         let* s := plift (utf8_dec raw) in
         pret (Some s, 40)
       else pret (None, 40)
     else if version =? 3 then pret (None, 40)
     else if (version =? 4) || (version =? 5) then pret (None, if 1502 <=? game then 38 else 39)
     else praise ValueError) in
  let '(font, bits) := fb in
  let mask := N.shiftl 1 bits - 1 in
  let* count := u32 in
  let* es := plist count (let* v := u64 in pret (N.shiftr v bits, N.land v mask)) in
  let* trenc := (if version <? 5 then let* c := u8 in pret (negb (c =? 0)) else pret false) in
  let* data := pread_all in
  let* d := plift (rst_fill trenc data es []) in
  pret {| r_font := font; r_entries := d; r_bits := bits; r_version := version; r_game := game |}.
