(** * JsonText: the text form of JSON values, json.dumps and json.loads

    Standard library, as used by host.py (bodies of requests: lines 283, 311, 341, 379,
    1154; answers: [json.load(req)]) and by Flask ([request.get_json()], the dict results
    of the view functions).  Modelled from json/encoder.py, json/decoder.py and
    json/scanner.py of CPython 3.11 and compared with them on examples.
    Not modelled: floats (a number with a fraction or an exponent is rejected), NaN and
    Infinity, the recursion limit, the bytes of the text (it is ASCII), the order in which
    Flask writes the keys. *)
From Coq Require Import String.
From Coq Require Import List NArith ZArith Bool Arith.
From Verif Require Import PyStr Prog Base Host.
Import ListNotations.
Local Open Scope N_scope.
Local Open Scope bool_scope.

(** ** json.dumps(v), ensure_ascii *)

(** json/encoder.py, [py_encode_basestring_ascii]: four lower-case hexadecimal digits. *)
Definition hex_digit (n : N) : N := if n <? 10 then 48 + n else 87 + n.
Definition escape_u (c : N) : text :=
  [92; 117; hex_digit (c / 4096); hex_digit (c / 256 mod 16); hex_digit (c / 16 mod 16); hex_digit (c mod 16)].
Definition escape (c : N) : text :=
  if c =? 34 then [92; 34] else if c =? 92 then [92; 92]
  else if c =? 10 then [92; 110] else if c =? 13 then [92; 114] else if c =? 9 then [92; 116]
  else if c =? 12 then [92; 102] else if c =? 8 then [92; 98]
  else if (32 <=? c) && (c <=? 126) then [c]
  else if c <? 65536 then escape_u c
  else let n := c - 65536 in escape_u (55296 + n / 1024) ++ escape_u (56320 + n mod 1024).
Definition quote (s : text) : text := 34 :: flat_map escape s ++ [34].

Section Dumps.
  (** The blanks after "," and ":" (json.dumps: one; Flask: none). *)
  Variables w1 w2 : text.

  Fixpoint joined (l : list text) : text :=
    match l with [] => [] | [x] => x | x :: l' => x ++ 44 :: w1 ++ joined l' end.
  Fixpoint dumps (v : json) : text :=
    match v with
    | JNull => txt "null"
    | JBool true => txt "true"
    | JBool false => txt "false"
    | JNum z => dec_of_Z z
    | JStr s => quote s
    | JArr l => 91 :: joined (map dumps l) ++ [93]
    | JObj fs => 123 :: joined (map (fun kv => quote (fst kv) ++ 58 :: w2 ++ dumps (snd kv)) fs) ++ [125]
    end.
End Dumps.

(** ** json.loads(s) *)

(** json/decoder.py:22 [WHITESPACE] *)
Definition json_space (c : N) : bool := (c =? 32) || (c =? 9) || (c =? 10) || (c =? 13).
Definition skip_space (s : text) : text := lstrip_by json_space s.

Definition hex_val (c : N) : option N :=
  if (48 <=? c) && (c <=? 57) then Some (c - 48)
  else if (97 <=? c) && (c <=? 102) then Some (c - 87)
  else if (65 <=? c) && (c <=? 70) then Some (c - 55)
  else None.
Definition hex4 (a b c d : N) : option N :=
  match hex_val a, hex_val b, hex_val c, hex_val d with
  | Some a, Some b, Some c, Some d => Some (((a * 16 + b) * 16 + c) * 16 + d)
  | _, _, _, _ => None
  end.
(** decoder.py [BACKSLASH] *)
Definition backslash (c : N) : option N :=
  if c =? 34 then Some 34 else if c =? 92 then Some 92 else if c =? 47 then Some 47
  else if c =? 98 then Some 8 else if c =? 102 then Some 12 else if c =? 110 then Some 10
  else if c =? 114 then Some 13 else if c =? 116 then Some 9 else None.

Definition hi_unit (c : N) : bool := (55296 <=? c) && (c <=? 56319).
Definition lo_unit (c : N) : bool := (56320 <=? c) && (c <=? 57343).

(** decoder.py [py_scanstring], strict; [s] follows the opening quote.  Result: the text
    and what follows the closing quote. *)
Fixpoint scan_string (s : text) : option (text * text) :=
  let put c r := match r with Some (t, r') => Some (c :: t, r') | None => None end in
  match s with
  | [] => None
  | c :: s1 =>
    if c =? 34 then Some ([], s1)
    else if c <? 32 then None
    else if negb (c =? 92) then put c (scan_string s1)
    else
      match s1 with
      | [] => None
      | e :: s2 =>
        if negb (e =? 117) then
          match backslash e with Some x => put x (scan_string s2) | None => None end
        else
          match s2 with
          | h1 :: h2 :: h3 :: h4 :: s3 =>
            match hex4 h1 h2 h3 h4 with
            | None => None
            | Some u =>
              if negb (hi_unit u) then put u (scan_string s3)
              else
                match s3 with
                | b :: e' :: g1 :: g2 :: g3 :: g4 :: s4 =>
                  if (b =? 92) && (e' =? 117) then
                    match hex4 g1 g2 g3 g4 with
                    | None => None
                    | Some u2 =>
                      if lo_unit u2 then put (65536 + ((u - 55296) * 1024 + (u2 - 56320))) (scan_string s4)
                      else put u (scan_string s3)
                    end
                  else put u (scan_string s3)
                | _ => put u (scan_string s3)
                end
            end
          | _ => None
          end
      end
  end.

(** json/scanner.py [NUMBER_RE], without fraction and exponent. *)
Definition is_digit (c : N) : bool := (48 <=? c) && (c <=? 57).
Fixpoint scan_digits (acc : Z) (s : text) : Z * text :=
  match s with
  | c :: s' => if is_digit c then scan_digits (acc * 10 + (Z.of_N c - 48))%Z s' else (acc, s)
  | [] => (acc, s)
  end.
Definition after_int (s : text) : bool :=
  match s with c :: _ => negb ((c =? 46) || (c =? 101) || (c =? 69)) | [] => true end.
Definition scan_nat (s : text) : option (Z * text) :=
  match s with
  | c :: s' =>
    if negb (is_digit c) then None
    else let '(z, r) := if c =? 48 then (0%Z, s') else scan_digits 0 s in
         if after_int r then Some (z, r) else None
  | [] => None
  end.
Definition scan_number (s : text) : option (Z * text) :=
  match s with
  | c :: s' =>
    if c =? 45 then match scan_nat s' with Some (z, r) => Some (Z.opp z, r) | None => None end
    else scan_nat s
  | [] => None
  end.

(** [dict(pairs)]: a later value for the same key replaces the earlier one. *)
Fixpoint dict_set (k : text) (v : json) (fs : list (text * json)) : list (text * json) :=
  match fs with
  | [] => [(k, v)]
  | (k', v') :: fs' => if text_eqb k k' then (k', v) :: fs' else (k', v') :: dict_set k v fs'
  end.
Definition dict_of (pairs : list (text * json)) : list (text * json) :=
  fold_left (fun fs kv => dict_set (fst kv) (snd kv) fs) pairs [].

Fixpoint starts (w : text) (s : text) : option text :=
  match w, s with
  | [], _ => Some s
  | c :: w', d :: s' => if c =? d then starts w' s' else None
  | _ :: _, [] => None
  end.

(** scanner.py [_scan_once], decoder.py [JSONArray] and [JSONObject]; [n]: fuel. *)
Fixpoint scan (n : nat) (s : text) : option (json * text) :=
  match n with
  | O => None
  | S n =>
    match s with
    | [] => None
    | c :: s1 =>
      if c =? 34 then match scan_string s1 with Some (t, r) => Some (JStr t, r) | None => None end
      else if c =? 123 then
        match skip_space s1 with
        | d :: r => if d =? 125 then Some (JObj [], r)
                    else match members n (d :: r) with Some (fs, r') => Some (JObj (dict_of fs), r') | None => None end
        | [] => None
        end
      else if c =? 91 then
        match skip_space s1 with
        | d :: r => if d =? 93 then Some (JArr [], r)
                    else match elements n (d :: r) with Some (l, r') => Some (JArr l, r') | None => None end
        | [] => None
        end
      else
        match starts (txt "null") s, starts (txt "true") s, starts (txt "false") s with
        | Some r, _, _ => Some (JNull, r)
        | _, Some r, _ => Some (JBool true, r)
        | _, _, Some r => Some (JBool false, r)
        | None, None, None => match scan_number s with Some (z, r) => Some (JNum z, r) | None => None end
        end
    end
  end
with elements (n : nat) (s : text) : option (list json * text) :=
  match n with
  | O => None
  | S n =>
    match scan n s with
    | None => None
    | Some (v, r) =>
      match skip_space r with
      | d :: r1 =>
        if d =? 93 then Some ([v], r1)
        else if d =? 44 then
          match elements n (skip_space r1) with Some (l, r2) => Some (v :: l, r2) | None => None end
        else None
      | [] => None
      end
    end
  end
with members (n : nat) (s : text) : option (list (text * json) * text) :=
  match n with
  | O => None
  | S n =>
    match s with
    | q :: s1 =>
      if negb (q =? 34) then None
      else
        match scan_string s1 with
        | None => None
        | Some (k, r) =>
          match skip_space r with
          | c :: r0 =>
            if negb (c =? 58) then None
            else
              match scan n (skip_space r0) with
              | None => None
              | Some (v, r1) =>
                match skip_space r1 with
                | d :: r2 =>
                  if d =? 125 then Some ([(k, v)], r2)
                  else if d =? 44 then
                    match members n (skip_space r2) with Some (l, r3) => Some ((k, v) :: l, r3) | None => None end
                  else None
                | [] => None
                end
              end
          | [] => None
          end
        end
    | [] => None
    end
  end.
(** decoder.py [JSONDecoder.decode] *)
Definition loads (s : text) : option json :=
  match scan (S (length s)) (skip_space s) with
  | Some (v, r) => match skip_space r with [] => Some v | _ => None end
  | None => None
  end.
