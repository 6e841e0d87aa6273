(** A reader of JSON texts (RFC 8259 without white space). Of the model only the type of trees is used. *)
From Verif Require Import Base Decimal JsonFmtModel.

(** What is read; numbers by their text. *)
Inductive tree :=
| TNull
| TBool (b : bool)
| TNumber (text : bytes)
| TString (s : bytes)
| TObject (members : list (bytes * tree))
| TArray (elements : list tree).

Definition hex_digit (c : ascii) : option N :=
  let n := N_of_ascii c in
  (if (48 <=? n) && (n <=? 57) then Some (n - 48)
   else if (65 <=? n) && (n <=? 70) then Some (n - 55)
   else if (97 <=? n) && (n <=? 102) then Some (n - 87) else None)%N.

Definition simple_escape (c : ascii) : option ascii :=
  if Ascii.eqb c """" then Some """"%char
  else if Ascii.eqb c "\" then Some "\"%char
  else if Ascii.eqb c "/" then Some "/"%char
  else if Ascii.eqb c "b" then Some (chr 8)
  else if Ascii.eqb c "t" then Some (chr 9)
  else if Ascii.eqb c "n" then Some (chr 10)
  else if Ascii.eqb c "f" then Some (chr 12)
  else if Ascii.eqb c "r" then Some (chr 13)
  else None.

(** The rest of a string, after the opening quote: control bytes are not allowed, code points only below 128. *)
Fixpoint read_string (s : bytes) : option (bytes * bytes) :=
  match s with
  | [] => None
  | c :: s' =>
      if Ascii.eqb c """" then Some ([], s')
      else if Ascii.eqb c "\" then
        match s' with
        | e :: s'' =>
            match simple_escape e with
            | Some x => match read_string s'' with Some (t, r) => Some (x :: t, r) | None => None end
            | None =>
                match s'' with
                | a :: b :: h :: l :: r' =>
                    match hex_digit a, hex_digit b, hex_digit h, hex_digit l with
                    | Some 0%N, Some 0%N, Some hn, Some ln =>
                        if Ascii.eqb e "u" && (hn <? 8)%N
                        then match read_string r' with Some (t, r) => Some (chr (16 * hn + ln) :: t, r) | None => None end
                        else None
                    | _, _, _, _ => None
                    end
                | _ => None
                end
            end
        | [] => None
        end
      else if (N_of_ascii c <? 32)%N then None
      else match read_string s' with Some (t, r) => Some (c :: t, r) | None => None end
  end.

Definition number_char (c : ascii) : bool :=
  let n := N_of_ascii c in
  ((48 <=? n) && (n <=? 57) || (n =? 43) || (n =? 45) || (n =? 46) || (n =? 69) || (n =? 101))%N.

Fixpoint read_number (s : bytes) : bytes * bytes :=
  match s with
  | c :: s' => if number_char c then let '(t, r) := read_number s' in (c :: t, r) else ([], s)
  | [] => ([], [])
  end.

Fixpoint skip (w s : bytes) : option bytes :=
  match w, s with
  | [], _ => Some s
  | x :: w', y :: s' => if Ascii.eqb x y then skip w' s' else None
  | _, _ => None
  end.

(** Reading a value, the members of an object after a '{' or ',', the elements of an array. *)
Fixpoint read_value (fuel : nat) (s : bytes) : option (tree * bytes) :=
  match fuel with
  | O => None
  | S fuel' =>
      match s with
      | [] => None
      | c :: s' =>
          if Ascii.eqb c """" then match read_string s' with Some (t, r) => Some (TString t, r) | None => None end
          else if Ascii.eqb c "{" then
            match skip (B "}") s' with
            | Some r => Some (TObject [], r)
            | None => match read_members fuel' s' with Some (ms, r) => Some (TObject ms, r) | None => None end
            end
          else if Ascii.eqb c "[" then
            match skip (B "]") s' with
            | Some r => Some (TArray [], r)
            | None => match read_elements fuel' s' with Some (es, r) => Some (TArray es, r) | None => None end
            end
          else if Ascii.eqb c "n" then match skip (B "null") s with Some r => Some (TNull, r) | None => None end
          else if Ascii.eqb c "t" then match skip (B "true") s with Some r => Some (TBool true, r) | None => None end
          else if Ascii.eqb c "f" then match skip (B "false") s with Some r => Some (TBool false, r) | None => None end
          else match read_number s with
               | ([], _) => None
               | (t, r) => Some (TNumber t, r)
               end
      end
  end
with read_members (fuel : nat) (s : bytes) : option (list (bytes * tree) * bytes) :=
  match fuel with
  | O => None
  | S fuel' =>
      match skip [""""%char] s with
      | None => None
      | Some s1 =>
          match read_string s1 with
          | None => None
          | Some (k, s2) =>
              match skip (B ":") s2 with
              | None => None
              | Some s3 =>
                  match read_value fuel' s3 with
                  | None => None
                  | Some (v, s4) =>
                      match skip (B ",") s4 with
                      | Some s5 => match read_members fuel' s5 with Some (ms, r) => Some ((k, v) :: ms, r) | None => None end
                      | None => match skip (B "}") s4 with Some r => Some ([(k, v)], r) | None => None end
                      end
                  end
              end
          end
      end
  end
with read_elements (fuel : nat) (s : bytes) : option (list tree * bytes) :=
  match fuel with
  | O => None
  | S fuel' =>
      match read_value fuel' s with
      | None => None
      | Some (v, s4) =>
          match skip (B ",") s4 with
          | Some s5 => match read_elements fuel' s5 with Some (es, r) => Some (v :: es, r) | None => None end
          | None => match skip (B "]") s4 with Some r => Some ([v], r) | None => None end
          end
      end
  end.

(** A whole text; more steps than bytes are never needed. *)
Definition read_json (s : bytes) : option tree :=
  match read_value (length s) s with Some (t, []) => Some t | _ => None end.

(** The tree a document stands for. *)
Definition leaf_tree (dbl : N -> bytes) (l : leaf) : tree :=
  match l with
  | LNull => TNull
  | LBool b => TBool b
  | LInt z => TNumber (sdec z)
  | LUint n => TNumber (dec n)
  | LDouble b => TNumber (dbl b)
  | LStr s => TString s
  end.
Fixpoint tree_of (dbl : N -> bytes) (t : json) : tree :=
  match t with
  | JLeaf l => leaf_tree dbl l
  | JObj ms => TObject (map (fun m => (fst m, tree_of dbl (snd m))) ms)
  | JArr es => TArray (map (tree_of dbl) es)
  end.

(** The texts doubles may have. *)
Definition number_text (s : bytes) : Prop := s <> [] /\ forallb number_char s = true.
