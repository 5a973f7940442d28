(** encoding/json of the Go standard library, as far as pkg/space/marshal/json and
    the ingester use it (Go 1.14/1.15, see .github/workflows/ci.yml): a value is
    rendered with HTML escaping on, as json.Marshal does, and json.Unmarshal
    checks and reads any text.  Bytes are numbers.  Not part of /repo. *)
From stdpp Require Export sorting.
From Coq Require Export Ascii.
From Verif.Model Require Export Go.
Local Open Scope N_scope.

Notation bytes := (list N) (only parsing).
Definition to_bytes (s : string) : bytes := N_of_ascii <$> String.list_ascii_of_string s.
Definition of_bytes (l : bytes) : string := String.string_of_list_ascii (ascii_of_N <$> l).

Inductive json :=
| JNull
| JBool (b : bool)
| JNum (s : bytes)
| JStr (s : bytes)
| JArr (l : list json)
| JObj (l : list (bytes * json)).

(** ** UTF-8 *)
Definition between (a b x : N) : bool := (a <=? x) && (x <=? b).
Definition cont (x : N) : bool := between 128 191 x.
(** utf8.DecodeRune: number of bytes of the first rune, 0 if it is not valid *)
Definition rune_len (l : bytes) : nat :=
  match l with
  | [] => 0
  | a :: l =>
      if a <? 128 then 1
      else
        match l with
        | [] => 0
        | b :: l =>
            if between 194 223 a then (if cont b then 2 else 0)%nat
            else
              match l with
              | [] => 0
              | c :: l =>
                  if (a =? 224) then (if between 160 191 b && cont c then 3 else 0)%nat
                  else if between 225 236 a || between 238 239 a then (if cont b && cont c then 3 else 0)%nat
                  else if (a =? 237) then (if between 128 159 b && cont c then 3 else 0)%nat
                  else
                    match l with
                    | [] => 0
                    | d :: _ =>
                        if (a =? 240) then (if between 144 191 b && cont c && cont d then 4 else 0)%nat
                        else if between 241 243 a then (if cont b && cont c && cont d then 4 else 0)%nat
                        else if (a =? 244) then (if between 128 143 b && cont c && cont d then 4 else 0)%nat
                        else 0%nat
                    end
              end
        end
  end.
(** utf8.EncodeRune; surrogates and too large values become U+FFFD *)
Definition replacement : bytes := [239; 191; 189].
Definition encode_rune (r : N) : bytes :=
  if r <? 128 then [r]
  else if r <? 2048 then [192 + r / 64; 128 + r mod 64]
  else if between 55296 57343 r then replacement
  else if r <? 65536 then [224 + r / 4096; 128 + (r / 64) mod 64; 128 + r mod 64]
  else if r <? 1114112 then [240 + r / 262144; 128 + (r / 4096) mod 64; 128 + (r / 64) mod 64; 128 + r mod 64]
  else replacement.

(** ** json.Marshal *)
Definition hex_digit (n : N) : N := if n <? 10 then 48 + n else 87 + n.
(** encodeState.string: one byte below 128 *)
Definition escape_ascii (b : N) : bytes :=
  if (b =? 34) || (b =? 92) then [92; b]
  else if b =? 10 then [92; 110]
  else if b =? 13 then [92; 114]
  else if b =? 9 then [92; 116]
  else if (b <? 32) || (b =? 60) || (b =? 62) || (b =? 38)
       then [92; 117; 48; 48; hex_digit (b / 16); hex_digit (b mod 16)]
  else [b].
(** encodeState.string: a longer character; U+2028 and U+2029 are escaped *)
Definition escape_rune (r : bytes) : bytes :=
  match r with
  | [226; 128; 168] => [92; 117; 50; 48; 50; 56]
  | [226; 128; 169] => [92; 117; 50; 48; 50; 57]
  | _ => r
  end.
Fixpoint escape (fuel : nat) (l : bytes) : bytes :=
  match fuel, l with
  | S fuel, b :: l' =>
      match rune_len l with
      | 0%nat => [92; 117; 102; 102; 102; 100] ++ escape fuel l'
      | 1%nat => escape_ascii b ++ escape fuel l'
      | n => escape_rune (take n l) ++ escape fuel (drop n l)
      end
  | _, _ => []
  end.
Definition render_string (s : bytes) : bytes := [34] ++ escape (length s) s ++ [34].

Definition lit (s : string) : bytes := to_bytes s.
(** elements separated by commas *)
Fixpoint commas (l : list bytes) : bytes :=
  match l with
  | [] => []
  | [x] => x
  | x :: l => x ++ [44] ++ commas l
  end.
Fixpoint render (j : json) : bytes :=
  match j with
  | JNull => lit "null"
  | JBool true => lit "true"
  | JBool false => lit "false"
  | JNum s => s
  | JStr s => render_string s
  | JArr l => [91] ++ commas ((fix go l := match l with [] => [] | j :: l => render j :: go l end) l) ++ [93]
  | JObj l =>
      [123] ++
      commas ((fix go l := match l with [] => [] | (k, j) :: l => (render_string k ++ [58] ++ render j) :: go l end) l)
      ++ [125]
  end.

(** ** json.Unmarshal: checkValid and the scanner *)
Definition is_ws (b : N) : bool := (b =? 32) || (b =? 9) || (b =? 10) || (b =? 13).
Fixpoint skip_ws (l : bytes) : bytes :=
  match l with
  | b :: l' => if is_ws b then skip_ws l' else l
  | [] => []
  end.
Definition hex_val (b : N) : option N :=
  if between 48 57 b then Some (b - 48)
  else if between 97 102 b then Some (b - 87)
  else if between 65 70 b then Some (b - 55)
  else None.
Definition hex4 (l : bytes) : option (N * bytes) :=
  match l with
  | a :: b :: c :: d :: l =>
      match hex_val a, hex_val b, hex_val c, hex_val d with
      | Some a, Some b, Some c, Some d => Some (a * 4096 + b * 256 + c * 16 + d, l)
      | _, _, _, _ => None
      end
  | _ => None
  end.
(** the rune after a backslash and u: unquoteBytes with utf16.DecodeRune *)
Definition unicode_escape (l : bytes) : option (bytes * bytes) :=
  match hex4 l with
  | Some (r, l') =>
      if between 55296 57343 r then
        match l' with
        | 92 :: 117 :: l'' =>
            match hex4 l'' with
            | Some (r2, l3) =>
                if between 55296 56319 r && between 56320 57343 r2
                then Some (encode_rune (65536 + (r - 55296) * 1024 + (r2 - 56320)), l3)
                else Some (replacement, l')
            | None => Some (replacement, l')      (* the scanner will reject it *)
            end
        | _ => Some (replacement, l')
        end
      else Some (encode_rune r, l')
  | None => None
  end.
(** characters up to the closing quote: the decoded text and the rest *)
Fixpoint read_string (fuel : nat) (l : bytes) : option (bytes * bytes) :=
  match fuel, l with
  | S fuel, b :: l' =>
      if b =? 34 then Some ([], l')
      else if b =? 92 then
        match l' with
        | [] => None
        | c :: l'' =>
            let simple x := match read_string fuel l'' with Some (s, r) => Some (x :: s, r) | None => None end in
            if (c =? 34) || (c =? 92) || (c =? 47) then simple c
            else if c =? 98 then simple 8
            else if c =? 102 then simple 12
            else if c =? 110 then simple 10
            else if c =? 114 then simple 13
            else if c =? 116 then simple 9
            else if c =? 117 then
              match unicode_escape l'' with
              | Some (x, l3) =>
                  match read_string fuel l3 with Some (s, r) => Some (x ++ s, r) | None => None end
              | None => None
              end
            else None
        end
      else if b <? 32 then None
      else
        match rune_len l with
        | 0%nat =>
            match read_string fuel l' with Some (s, r) => Some (replacement ++ s, r) | None => None end
        | n =>
            match read_string fuel (drop n l) with Some (s, r) => Some (take n l ++ s, r) | None => None end
        end
  | _, _ => None
  end.

Definition is_digit (b : N) : bool := between 48 57 b.
Fixpoint digits (l : bytes) : bytes * bytes :=
  match l with
  | b :: l' => if is_digit b then let '(d, r) := digits l' in (b :: d, r) else ([], l)
  | [] => ([], [])
  end.
(** integer part, fraction, exponent of a number *)
Definition read_int (l : bytes) : option (bytes * bytes) :=
  match l with
  | 48 :: l' => Some ([48], l')
  | b :: _ => if between 49 57 b then Some (digits l) else None
  | [] => None
  end.
Definition read_digits1 (l : bytes) : option (bytes * bytes) :=
  match digits l with ([], _) => None | x => Some x end.
Definition read_frac (l : bytes) : option (bytes * bytes) :=
  match l with
  | 46 :: l' => match read_digits1 l' with Some (d, r) => Some (46 :: d, r) | None => None end
  | _ => Some ([], l)
  end.
Definition read_exp (l : bytes) : option (bytes * bytes) :=
  match l with
  | e :: l' =>
      if (e =? 101) || (e =? 69) then
        match l' with
        | s :: l'' =>
            if (s =? 43) || (s =? 45)
            then match read_digits1 l'' with Some (d, r) => Some (e :: s :: d, r) | None => None end
            else match read_digits1 l' with Some (d, r) => Some (e :: d, r) | None => None end
        | [] => None
        end
      else Some ([], l)
  | [] => Some ([], [])
  end.
Definition read_number (l : bytes) : option (bytes * bytes) :=
  let '(sgn, l) := match l with 45 :: l' => ([45], l') | _ => ([], l) end in
  match read_int l with
  | Some (i, l) =>
      match read_frac l with
      | Some (f, l) =>
          match read_exp l with
          | Some (e, l) => Some (sgn ++ i ++ f ++ e, l)
          | None => None
          end
      | None => None
      end
  | None => None
  end.
Fixpoint strip (p l : bytes) : option bytes :=
  match p, l with
  | [], _ => Some l
  | x :: p, y :: l => if x =? y then strip p l else None
  | _, [] => None
  end.

(** one value; the members of an object and the elements of an array after the
    first *)
Fixpoint read_value (fuel : nat) (l : bytes) : option (json * bytes) :=
  match fuel with
  | O => None
  | S fuel =>
      match skip_ws l with
      | [] => None
      | b :: l' =>
          if b =? 123 then
            match skip_ws l' with
            | 125 :: r => Some (JObj [], r)
            | _ => match read_members fuel l' with Some (m, r) => Some (JObj m, r) | None => None end
            end
          else if b =? 91 then
            match skip_ws l' with
            | 93 :: r => Some (JArr [], r)
            | _ => match read_elems fuel l' with Some (m, r) => Some (JArr m, r) | None => None end
            end
          else if b =? 34 then
            match read_string (length l') l' with Some (s, r) => Some (JStr s, r) | None => None end
          else if b =? 116 then match strip (lit "rue") l' with Some r => Some (JBool true, r) | None => None end
          else if b =? 102 then match strip (lit "alse") l' with Some r => Some (JBool false, r) | None => None end
          else if b =? 110 then match strip (lit "ull") l' with Some r => Some (JNull, r) | None => None end
          else match read_number (b :: l') with Some (s, r) => Some (JNum s, r) | None => None end
      end
  end
with read_members (fuel : nat) (l : bytes) : option (list (bytes * json) * bytes) :=
  match fuel with
  | O => None
  | S fuel =>
      match skip_ws l with
      | 34 :: l' =>
          match read_string (length l') l' with
          | Some (k, r) =>
              match skip_ws r with
              | 58 :: r =>
                  match read_value fuel r with
                  | Some (v, r) =>
                      match skip_ws r with
                      | 44 :: r =>
                          match read_members fuel r with Some (m, r) => Some ((k, v) :: m, r) | None => None end
                      | 125 :: r => Some ([(k, v)], r)
                      | _ => None
                      end
                  | None => None
                  end
              | _ => None
              end
          | None => None
          end
      | _ => None
      end
  end
with read_elems (fuel : nat) (l : bytes) : option (list json * bytes) :=
  match fuel with
  | O => None
  | S fuel =>
      match read_value fuel l with
      | Some (v, r) =>
          match skip_ws r with
          | 44 :: r => match read_elems fuel r with Some (m, r) => Some (v :: m, r) | None => None end
          | 93 :: r => Some ([v], r)
          | _ => None
          end
      | None => None
      end
  end.
(** the whole text is one value *)
Definition parse (l : bytes) : option json :=
  match read_value (2 * length l + 2) l with
  | Some (j, r) => match skip_ws r with [] => Some j | _ => None end
  | None => None
  end.

(** ** Decoding into a struct *)
(** keys match field names without regard to case; U+212A and U+017F count as k
    and s (encoding/json fold.go) *)
Definition lower (b : N) : N := if between 65 90 b then b + 32 else b.
Fixpoint fold_key (l : bytes) : bytes :=
  match l with
  | 226 :: 132 :: 170 :: l => 107 :: fold_key l
  | 197 :: 191 :: l => 115 :: fold_key l
  | b :: l => lower b :: fold_key l
  | [] => []
  end.
(** a struct as its fields: name and how a value is stored, None is a type error *)
Definition fields (S : Type) := list (bytes * (json -> S -> option S)).
Definition find_field {S} (fs : fields S) (k : bytes) : option (json -> S -> option S) :=
  match list_find (fun f => f.1 = k) fs with
  | Some (_, f) => Some f.2
  | None => match list_find (fun f => f.1 = fold_key k) fs with Some (_, f) => Some f.2 | None => None end
  end.
Fixpoint set_fields {S} (fs : fields S) (l : list (bytes * json)) (s : S) : option S :=
  match l with
  | [] => Some s
  | (k, v) :: l =>
      match find_field fs k with
      | Some f => match f v s with Some s => set_fields fs l s | None => None end
      | None => set_fields fs l s
      end
  end.
Definition decode_struct {S} (fs : fields S) (j : json) (s : S) : option S :=
  match j with
  | JNull => Some s
  | JObj l => set_fields fs l s
  | _ => None
  end.
(** string and bool fields *)
Definition decode_string (j : json) (old : string) : option string :=
  match j with JNull => Some old | JStr s => Some (of_bytes s) | _ => None end.
Definition decode_bool (j : json) (old : bool) : option bool :=
  match j with JNull => Some old | JBool b => Some b | _ => None end.
(** map[string]string: null makes it nil, an object adds to what is there *)
Fixpoint set_entries (l : list (bytes * json)) (m : amap) : option amap :=
  match l with
  | [] => Some m
  | (k, v) :: l =>
      match decode_string v "" with Some s => set_entries l (<[of_bytes k := s]> m) | None => None end
  end.
Definition decode_map (j : json) (old : option amap) : option (option amap) :=
  match j with
  | JNull => Some None
  | JObj l => match set_entries l (default ∅ old) with Some m => Some (Some m) | None => None end
  | _ => None
  end.

(** ** Encoding of a map: keys in increasing order *)
Definition byte_le (x y : string * string) : Prop := String.leb x.1 y.1 = true.
Global Instance byte_le_dec x y : Decision (byte_le x y).
Proof. unfold byte_le. apply _. Defined.
Definition encode_map (l : list (string * string)) : json :=
  JObj ((fun kv => (to_bytes kv.1, JStr (to_bytes kv.2))) <$> merge_sort byte_le l).
