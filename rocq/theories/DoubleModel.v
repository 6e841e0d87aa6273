(** Floating-point numbers in the formatting library: include/blackhole/extensions/format.hpp:2375-2524 [write_double] over the buffers
    of MembufModel, with the conversions of snprintf it asks for (src/format.cpp:561-574). *)
From Verif Require Import Base FmtModel MembufModel.
Open Scope N_scope.

(** include/blackhole/extensions/format.hpp:597-622: the sign bit, NaN and infinity of a double, by its bit pattern; the
    negated value has another sign bit only. *)
Definition negative (bits : N) : bool := 2 ^ 63 <=? bits.
Definition magnitude (bits : N) : N := if negative bits then bits - 2 ^ 63 else bits.
Definition special (bits : N) : bool := (bits / 2 ^ 52) mod 2 ^ 11 =? 2047.
Definition is_nan (bits : N) : bool := special bits && negb (bits mod 2 ^ 52 =? 0).

(** include/blackhole/extensions/format.hpp:2379-2400: the letter for snprintf and whether NaN and infinity are in capitals; [None]: the
    exception for unknown types. *)
Definition float_type (type : ascii) : option (ascii * bool) :=
  if Ascii.eqb type NUL then Some ("g"%char, false)
  else if existsb (Ascii.eqb type) (B "efga") then Some (type, false)
  else if existsb (Ascii.eqb type) (B "FEGA") then Some (type, true)
  else None.

(** include/blackhole/extensions/format.hpp:2402-2410. *)
Definition sign_char (sp : spec) (bits : N) : option ascii :=
  if negative bits then Some "-"%char
  else if sp_sign sp then Some (if sp_plus sp then "+" else " ")%char
  else None.

(** include/blackhole/extensions/format.hpp:2451-2474: the format string without its NUL; [width] is what is left for snprintf. *)
Definition format_string (sp : spec) (width : N) (type : ascii) : bytes :=
  B "%" ++ (if sp_hash sp then B "#" else [])
  ++ match sp_align sp with
     | ACenter => []
     | al => (match al with ALeft => B "-" | _ => [] end) ++ (if width =? 0 then [] else B "*")
     end
  ++ match sp_precision sp with Some _ => B ".*" | None => [] end ++ [type].
(** src/format.cpp:566-573: the integers passed to snprintf in front of the value. *)
Definition format_arguments (sp : spec) (width : N) : list N :=
  let width_for_sprintf := match sp_align sp with ACenter => 0 | _ => width end in
  (if width_for_sprintf =? 0 then [] else [width_for_sprintf])
  ++ match sp_precision sp with Some q => [q] | None => [] end.

(** A place of the array. [None]: outside, or (reading) never assigned. *)
Definition get_cell (b : buf) (i : N) : option ascii :=
  match nth_error (array b) (N.to_nat i) with Some (Some c) => Some c | _ => None end.
Definition put_cells (b : buf) (i : N) (s : cells) : outcome buf :=
  match store (array b) i s with Some cs => Done (set_array b cs) | None => Bad end.

Section Double.
(** The C library: what [%[#][.precision]type] writes for a finite nonnegative double; [None]: it fails. *)
Variable digits : bool -> option N -> ascii -> N -> option bytes.
(** The standard leaves [std::copy] undefined if the target begins within the source. [true]: it works there, as memmove does;
    [false]: it does not. *)
Variable lenient : bool.

(** snprintf for format strings with one conversion: flags, width and precision by arguments. The text before it is cut off; [None]: the
    call is undefined, [Some None]: it fails, or the text is longer than INT_MAX. *)
Definition flag (c : ascii) (f : bytes) : bool * bytes :=
  match f with d :: f' => if Ascii.eqb d c then (true, f') else (false, f) | [] => (false, f) end.
Definition converted (format : bytes) (ints : list N) (bits : N) : option (option bytes) :=
  let (percent, f) := flag "%" format in
  let (hash, f) := flag "#" f in
  let (left, f) := flag "-" f in
  let (star, f) := flag "*" f in
  let (dot, f) := flag "." f in
  let (second, f) := if dot then flag "*" f else (false, f) in
  match percent, f with
  | true, [type] =>
      let finish (width : N) (precision : option N) :=
        match digits hash precision type bits with
        | None => Some None
        | Some s =>
            let padding := repeat " "%char (N.to_nat (width - length_N s)) in
            let t := if left then s ++ padding else padding ++ s in
            Some (if INT_MAX <? length_N t then None else Some t)
        end in
      match star, dot, second, ints with
      | true, true, true, w :: q :: _ => finish w (Some q)
      | true, false, _, w :: _ => finish w None
      | false, true, true, q :: _ => finish 0 (Some q)
      | false, false, _, _ => finish 0 None
      | _, _, _, _ => None
      end
  | _, _ => None
  end.

(** snprintf into the array from [at_] on with [size] places: at most [size - 1] characters and a NUL. The number is the length of the
    whole text, [None] for a negative result (what is stored then is never read). *)
Definition snprintf (b : buf) (at_ size : N) (format : bytes) (ints : list N) (bits : N) : outcome (buf * option N) :=
  match converted format ints bits with
  | None => Bad
  | Some None => Done (b, None)
  | Some (Some t) =>
      if size =? 0 then Done (b, Some (length_N t))
      else match put_cells b at_ (stored (firstn (N.to_nat (size - 1)) t) ++ [Some NUL]) with
           | Done b' => Done (b', Some (length_N t))
           | Thrown b' => Thrown (b', None)
           | Bad => Bad
           end
  end.

(** include/blackhole/extensions/format.hpp:2512-2513: fill characters for the spaces from [i] on; where that ends. [fuel]: no more than
    the length of the array. *)
Fixpoint refill (fuel : nat) (b : buf) (i : N) (fill : ascii) : outcome (buf * N) :=
  match fuel with
  | O => Bad
  | S fuel' =>
      match get_cell b i with
      | None => Bad
      | Some c =>
          if Ascii.eqb c " " then
            match put_cells b i [Some fill] with Done b' => refill fuel' b' (i + 1) fill | _ => Bad end
          else Done (b, i)
      end
  end.

Section Grow.
Variable grow : buf -> N -> outcome buf.

(** include/blackhole/extensions/format.hpp:1945-1949 [grow_buffer]. *)
Definition grow_buffer (b : buf) (n : N) : outcome buf := resize grow b (wrap64 (b_size b + n)).

(** include/blackhole/extensions/format.hpp:2192-2213 [write_str] and 2421-2424, 2436-2439: the text with a space in front for the sign,
    which is stored at the place where the text begins. *)
Definition write_special (b : buf) (sp : spec) (sign : option ascii) (name : bytes) : outcome buf :=
  let text := match sign with Some _ => " "%char :: name | None => name end in
  let size := length_N text in
  let at_ := b_size b in
  let first := if size <? sp_width sp
               then match sp_align sp with ARight => sp_width sp - size | ACenter => (sp_width sp - size) / 2 | _ => 0 end
               else 0 in
  next (grow_buffer b (if size <? sp_width sp then sp_width sp else size)) (fun b =>
  next (put_cells b at_ (stored (pad_str text sp))) (fun b =>
    match sign with Some c => put_cells b (at_ + first) [Some c] | None => Done b end)).

(** include/blackhole/extensions/format.hpp:2503-2510: the text is moved to the middle. [grow_buffer] may replace the array, and copies
    what is below the old size only. *)
Definition center (b : buf) (sp : spec) (n : N) : outcome buf :=
  let at_ := b_size b in
  let left := (sp_width sp - n) / 2 in
  next (grow_buffer b (sp_width sp)) (fun b =>
    if negb lenient && (left <? n) then Bad
    else match load (array b) at_ (at_ + n) with
         | None => Bad
         | Some s =>
             next (put_cells b (at_ + left) s) (fun b =>
             next (put_cells b at_ (filled (sp_fill sp) left)) (fun b =>
                   put_cells b (at_ + left + n) (filled (sp_fill sp) (sp_width sp - n - left))))
         end).

(** include/blackhole/extensions/format.hpp:2492-2518: the text of [n] characters is at [offset]. *)
Definition finish (b : buf) (sp : spec) (sign : option ascii) (offset n : N) : outcome buf :=
  let fill := sp_fill sp in
  (* 2493-2502 *)
  let signed : outcome (buf * option ascii * N) :=
    match sign with
    | None => Done (b, None, n)
    | Some c =>
        match get_cell b offset with
        | None => Bad
        | Some d =>
            let inside := match sp_align sp with ARight | ADefault => Ascii.eqb d " " | _ => false end in
            match put_cells b (offset - 1) [Some (if inside then fill else c)] with
            | Done b' => Done (b', if inside then Some c else None, n + 1)
            | _ => Bad
            end
        end
    end in
  match signed with
  | Done (b, sign, n) =>
      if (match sp_align sp with ACenter => true | _ => false end) && (n <? sp_width sp) then center b sp n
      else
        (* 2511-2516 *)
        let refilled :=
          if negb (Ascii.eqb fill " ") || (match sign with Some _ => true | None => false end) then
            match refill (S (length (array b))) b offset fill with
            | Done (b, i) => match sign with Some c => put_cells b (i - 1) [Some c] | None => Done b end
            | _ => Bad
            end
          else Done b in
        next refilled (fun b => grow_buffer b n)
  | _ => Bad
  end.

(** include/blackhole/extensions/format.hpp:2478-2523: the loop; [None]: it has not ended. *)
Fixpoint attempts (fuel : nat) (b : buf) (sp : spec) (sign : option ascii) (offset : N) (format : bytes) (ints : list N) (bits : N)
  : option (outcome buf) :=
  match fuel with
  | O => None
  | S fuel' =>
      match snprintf b offset (b_capacity b - offset) format ints bits with
      | Done (b, Some n) =>
          if offset + n <? b_capacity b then Some (finish b sp sign offset n)
          else match reserve grow b (wrap64 (offset + n + 1)) with
               | Done b => attempts fuel' b sp sign offset format ints bits
               | r => Some r
               end
      | Done (b, None) =>
          match reserve grow b (wrap64 (b_capacity b + 1)) with
          | Done b => attempts fuel' b sp sign offset format ints bits
          | r => Some r
          end
      | _ => Some Bad
      end
  end.

(** include/blackhole/extensions/format.hpp:2375-2524 [write_double] of a [double] with a width below 2^31. An unknown type throws. *)
Definition write_double (b : buf) (sp : spec) (bits : N) : option (outcome buf) :=
  match float_type (sp_type sp) with
  | None => Some (Thrown b)
  | Some (type, upper) =>
      let sign := sign_char sp bits in
      if special bits then
        Some (write_special b sp sign
                (if is_nan bits then (if upper then B "NAN" else B "nan") else (if upper then B "INF" else B "inf")))
      else
        let width := sp_width sp in
        match (match sign with Some _ => reserve grow b (wrap64 (b_size b + N.max width 1)) | None => Done b end) with
        | Done b =>
            let left := match sign with Some _ => width - 1 | None => width end in
            let offset := match sign with Some _ => b_size b + 1 | None => b_size b end in
            attempts 200 b sp sign offset (format_string sp left type) (format_arguments sp left) (magnitude bits)
        | r => Some r
        end
  end.

(** A program over one buffer: its operations, and numbers written to it. *)
Inductive act := Plain (o : op) | Number (sp : spec) (bits : N).
Definition perform (a : act) (b : buf) : option (outcome buf) :=
  match a with Plain o => Some (step grow o b) | Number sp bits => write_double b sp bits end.
Fixpoint perform_all (l : list act) (b : buf) : option (outcome buf) :=
  match l with
  | [] => Some (Done b)
  | a :: l' => match perform a b with Some (Done b) => perform_all l' b | r => r end
  end.
End Grow.
End Double.
