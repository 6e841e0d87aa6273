(** The text of a JSON document: rapidjson::Writer over the writer's buffer (src/formatter/json.cpp:107-122 [stream_t],
    269-273 [build], 393-397). RapidJSON's Writer is not part of the repository and modelled as in version 1.1:
    no white space, strings byte by byte without UTF-8 validation. The text of a double is the parameter [dbl]
    (not-a-number and infinities, which the writer refuses, are not modelled). *)
From Verif Require Import Base Decimal JsonFmtModel.

Definition hex_upper (d : N) : ascii := if (d <? 10)%N then chr (48 + d) else chr (55 + d).

(** Writer::WriteString, one byte. *)
Definition json_char (c : ascii) : bytes :=
  let n := N_of_ascii c in
  if Ascii.eqb c """" then B "\" ++ [c]
  else if Ascii.eqb c "\" then B "\\"
  else if (n =? 8)%N then B "\b"
  else if (n =? 9)%N then B "\t"
  else if (n =? 10)%N then B "\n"
  else if (n =? 12)%N then B "\f"
  else if (n =? 13)%N then B "\r"
  else if (n <? 32)%N then B "\u00" ++ [hex_upper (n / 16); hex_upper (n mod 16)]
  else [c].

Definition QUOTE : ascii := """".
Definition write_string (s : bytes) : bytes := QUOTE :: flat_map json_char s ++ [QUOTE].

Definition write_leaf (dbl : N -> bytes) (l : leaf) : bytes :=
  match l with
  | LNull => B "null"
  | LBool b => if b then B "true" else B "false"
  | LInt z => sdec z
  | LUint n => dec n
  | LDouble b => dbl b
  | LStr s => write_string s
  end.

Fixpoint join (l : list bytes) : bytes :=
  match l with
  | [] => []
  | [x] => x
  | x :: l' => x ++ ","%char :: join l'
  end.

(** Value::Accept. *)
Fixpoint write_json (dbl : N -> bytes) (t : json) : bytes :=
  match t with
  | JLeaf l => write_leaf dbl l
  | JObj ms => "{"%char :: join (map (fun m => write_string (fst m) ++ ":"%char :: write_json dbl (snd m)) ms) ++ ["}"%char]
  | JArr es => "["%char :: join (map (write_json dbl) es) ++ ["]"%char]
  end.

(** src/formatter/json.cpp:393-397. *)
Definition json_line (dbl : N -> bytes) (newline : bool) (t : json) : bytes :=
  write_json dbl t ++ (if newline then [NL] else []).
