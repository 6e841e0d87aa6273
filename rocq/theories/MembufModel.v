(** The buffers of the formatting library: include/blackhole/extensions/format.hpp:431-592 [Buffer], [MemoryBuffer],
    [FixedBuffer], the writers over them (2015-2063, 2560-2639) and [FormatInt] (2836-2935). *)
From Verif Require Import Base FmtModel.
Open Scope N_scope.

(** An operation ends normally, throws (the buffer stays as it is), or is undefined: an access outside of an array or of
    freed memory, or [deallocate] with another size than [allocate] had. *)
Inductive outcome (A : Type) := Done (a : A) | Thrown (a : A) | Bad.
Arguments Done {A} a.
Arguments Thrown {A} a.
Arguments Bad {A}.
Definition next {A} (r : outcome A) (f : A -> outcome A) : outcome A :=
  match r with Done a => f a | Thrown a => Thrown a | Bad => Bad end.

(** include/blackhole/extensions/format.hpp:433-441, 512-514: [ptr_], [size_], [capacity_] and [data_]. [b_heap] is the array [ptr_] points to if it is not [data_];
    its length is the real one. A cell is [None] before its first assignment. *)
Record buf := Buf { b_heap : option cells; b_data : cells; b_size : N; b_capacity : N }.
Definition array (b : buf) : cells := match b_heap b with Some h => h | None => b_data b end.
Definition set_array (b : buf) (cs : cells) : buf :=
  match b_heap b with
  | Some _ => Buf (Some cs) (b_data b) (b_size b) (b_capacity b)
  | None => Buf None cs (b_size b) (b_capacity b)
  end.
Definition set_size (b : buf) (n : N) : buf := Buf (b_heap b) (b_data b) n (b_capacity b).

(** std::copy to the index [at]: [None] outside of the array. *)
Definition store (cs : cells) (at_ : N) (s : cells) : option cells :=
  if at_ + length_N s <=? length_N cs
  then Some (firstn (N.to_nat at_) cs ++ s ++ skipn (N.to_nat at_ + length s) cs) else None.
(** The cells from one index to another: [None] outside of the array. *)
Definition load (cs : cells) (from to : N) : option cells :=
  if (from <=? to) && (to <=? length_N cs) then Some (firstn (N.to_nat (to - from)) (skipn (N.to_nat from) cs)) else None.

(** What is appended: bytes that are elsewhere, or a part of the buffer itself. *)
Inductive source := Other (s : bytes) | Own (from to : N).

Section Buffer.
(** include/blackhole/extensions/format.hpp:449, the virtual method. *)
Variable grow : buf -> N -> outcome buf.

(** include/blackhole/extensions/format.hpp:465-469 [resize], 476-479 [reserve], 481 [clear]. *)
Definition resize (b : buf) (n : N) : outcome buf :=
  next (if b_capacity b <? n then grow b n else Done b) (fun b => Done (set_size b n)).
Definition reserve (b : buf) (n : N) : outcome buf := if b_capacity b <? n then grow b n else Done b.
Definition clear (b : buf) : outcome buf := Done (set_size b 0).

(** The bytes a source refers to, once the buffer [b] has become [b']: a heap array that has been replaced cannot be read. *)
Definition fetch (grown : bool) (b b' : buf) (src : source) : option cells :=
  match src with
  | Other s => Some (stored s)
  | Own from to =>
      match b_heap b with
      | None => load (b_data b') from to
      | Some _ => if grown then None else load (array b') from to
      end
  end.
Definition elements (src : source) : N := match src with Other s => length_N s | Own from to => to - from end.

(** include/blackhole/extensions/format.hpp:483-487 [push_back], the reference to the element as a source, and 499-505 [append]. *)
Definition put_at_end (grown : bool) (b b' : buf) (src : source) : outcome buf :=
  match fetch grown b b' src with
  | None => Bad
  | Some s =>
      match store (array b') (b_size b') s with
      | None => Bad
      | Some cs => Done (set_size (set_array b' cs) (b_size b' + length_N s))
      end
  end.
Definition push_back (b : buf) (src : source) : outcome buf :=
  let full := b_size b =? b_capacity b in
  next (if full then grow b (wrap64 (b_size b + 1)) else Done b) (fun b' => put_at_end full b b' src).
Definition append (b : buf) (src : source) : outcome buf :=
  let total := wrap64 (b_size b + elements src) in
  let small := b_capacity b <? total in
  next (if small then grow b total else Done b) (fun b' => put_at_end small b b' src).

(** include/blackhole/extensions/format.hpp:2053-2058 [BasicWriter::c_str]: the buffer with the NUL behind its contents. *)
Definition c_str (b : buf) : outcome buf :=
  next (reserve b (wrap64 (b_size b + 1))) (fun b =>
    match store (array b) (b_size b) [Some NUL] with Some cs => Done (set_array b cs) | None => Bad end).

(** A program over one buffer. *)
Inductive op := OResize (n : N) | OReserve (n : N) | OClear | OPush (src : source) | OAppend (src : source) | OCStr.
Definition step (o : op) (b : buf) : outcome buf :=
  match o with
  | OResize n => resize b n
  | OReserve n => reserve b n
  | OClear => clear b
  | OPush src => push_back b src
  | OAppend src => append b src
  | OCStr => c_str b
  end.
Fixpoint run (ops : list op) (b : buf) : outcome buf :=
  match ops with [] => Done b | o :: ops' => next (step o b) (run ops') end.
End Buffer.

(** The contents of a buffer; [None] if it claims more than its array has. *)
Definition contents (b : buf) : option cells := load (array b) 0 (b_size b).

(** ---- MemoryBuffer ---- *)

(** include/blackhole/extensions/format.hpp:413 [INLINE_BUFFER_SIZE]. *)
Definition inline_size : N := 500.
(** include/blackhole/extensions/format.hpp:525-526: the constructor. *)
Definition fresh : buf := Buf None (repeat None (N.to_nat inline_size)) 0 inline_size.

(** include/blackhole/extensions/format.hpp:517-519 [deallocate]: the memory goes back with the size it was got with. *)
Definition deallocates (b : buf) : bool := match b_heap b with None => true | Some h => length_N h =? b_capacity b end.

(** include/blackhole/extensions/format.hpp:566-583 [grow]. [limit]: what the allocator can give; beyond it throws. *)
Definition grow (limit : N) (b : buf) (size : N) : outcome buf :=
  let new_capacity := N.max size (wrap64 (b_capacity b + b_capacity b / 2)) in
  if limit <? new_capacity then Thrown b
  else match load (array b) 0 (b_size b) with
       | None => Bad
       | Some old =>
           match store (repeat None (N.to_nat new_capacity)) 0 old with
           | None => Bad
           | Some new => if deallocates b then Done (Buf (Some new) (b_data b) (b_size b) new_capacity) else Bad
           end
       end.

(** include/blackhole/extensions/format.hpp:532-547 [move]: the buffer that takes over, with its own [data_] [mine], and the one left. *)
Definition move_from (mine : cells) (other : buf) : outcome (buf * buf) :=
  match b_heap other with
  | None =>
      match load (b_data other) 0 (b_size other) with
      | None => Bad
      | Some s => match store mine 0 s with
                  | Some cs => Done (Buf None cs (b_size other) (b_capacity other), other)
                  | None => Bad
                  end
      end
  | Some h => Done (Buf (Some h) mine (b_size other) (b_capacity other), Buf None (b_data other) (b_size other) (b_capacity other))
  end.
(** include/blackhole/extensions/format.hpp:550-552: the move constructor. *)
Definition move_construct (other : buf) : outcome (buf * buf) := move_from (repeat None (N.to_nat inline_size)) other.
(** include/blackhole/extensions/format.hpp:554-559: move assignment from another buffer. *)
Definition move_assign (this other : buf) : outcome (buf * buf) :=
  if deallocates this then move_from (b_data this) other else Bad.

(** ---- FixedBuffer ---- *)

(** include/blackhole/extensions/format.hpp:585-593, src/format.cpp:783-786: an array of the caller; growing throws. *)
Definition fixed_grow (b : buf) (size : N) : outcome buf := Thrown b.
Definition fixed_buffer (size : N) : buf := Buf (Some (repeat None (N.to_nat size))) [] 0 size.

(** ---- FormatInt ---- *)

(** include/blackhole/extensions/format.hpp:2838-2841: nineteen digits and three more places. *)
Definition int_buffer : N := 22.
(** include/blackhole/extensions/format.hpp:2845-2864: the bytes are stored from the right, in front of the last place; [None]: a store in front of the buffer or a
    read outside of the table. The loop is that of [decimal_back]. *)
Definition format_back (room : N) (value : N) : option bytes :=
  match decimal_back 65 value with
  | Some back => if length_N back <=? room then Some (rev back) else None
  | None => None
  end.
(** include/blackhole/extensions/format.hpp:2880-2882, 2887 [size], 2893 [data]. *)
Definition format_unsigned (value : N) : option bytes := format_back (int_buffer - 1) value.
(** include/blackhole/extensions/format.hpp:2866-2874 [FormatSigned]. *)
Definition format_signed (value : Z) : option bytes :=
  let abs_value := Z.to_N (value mod 2 ^ 64) in
  if (value <? 0)%Z
  then match format_back (int_buffer - 1) (wrap64 (two64 - abs_value)) with
       | Some s => if length_N s <? int_buffer - 1 then Some ("-"%char :: s) else None
       | None => None
       end
  else format_back (int_buffer - 1) abs_value.

(** include/blackhole/extensions/format.hpp:2912-2935 [format_decimal]: the bytes stored from [buffer] on. *)
Definition format_decimal (w : word) (value : Z) : option bytes :=
  let negative := (value <? 0)%Z in
  let abs_value := Z.to_N ((if negative then - value else value) mod 2 ^ Z.of_N (bits_of w)) in
  let digits :=
    if abs_value <? 100 then
      if abs_value <? 10 then Some [chr (48 + abs_value)]
      else match digits_at (abs_value * 2), digits_at (abs_value * 2 + 1) with
           | Some a, Some b => Some [a; b]
           | _, _ => None
           end
    else match count_digits w abs_value, decimal_back 65 abs_value with
         | Some n, Some back => if n =? length_N back then Some (rev back) else None
         | _, _ => None
         end in
  match digits with Some s => Some (if negative then "-"%char :: s else s) | None => None end.
