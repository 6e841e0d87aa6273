(** Flush policies of the file sink and the size-string parser. *)
From Verif Require Import Base.
Open Scope N_scope.

(** src/sink/file/flusher.hpp:14-19 [flusher_t::result_t]. *)
Inductive flush_result := Idle | Flush.

(** src/sink/file/flusher/repeat.hpp:11-18, data members of [repeat_t] ([size_t] = 64 bits). *)
Record repeat_t := { r_counter : N; r_threshold : N }.

(** src/sink/file/flusher/repeat.hpp:20-23, constructor: zero means the maximum [size_t]. *)
Definition repeat_new (threshold : N) : repeat_t :=
  {| r_counter := 0; r_threshold := if 0 <? threshold then threshold else two64 - 1 |}.

(** src/sink/file/flusher/repeat.hpp:37-47 [repeat_t::update]. The addition wraps at 2^64. *)
Definition repeat_update (f : repeat_t) (nwritten : N) : flush_result * repeat_t :=
  if nwritten =? 0 then (Idle, f)
  else
    let c := wrap64 (r_counter f + 1) mod r_threshold f in
    let f' := {| r_counter := c; r_threshold := r_threshold f |} in
    if c =? 0 then (Flush, f') else (Idle, f').

(** src/sink/file/flusher/bytecount.hpp:11-17, data members of [bytecount_t]. *)
Record bytecount_t := { b_counter : N; b_threshold : N }.

(** src/sink/file/flusher/bytecount.hpp:20-23, constructor: zero means the maximum [uint64_t]. *)
Definition bytecount_new (threshold : N) : bytecount_t :=
  {| b_counter := 0; b_threshold := if 0 <? threshold then threshold else two64 - 1 |}.

(** src/sink/file/flusher/bytecount.hpp:37-49 [bytecount_t::update]. Both additions wrap at 2^64. *)
Definition bytecount_update (f : bytecount_t) (nwritten : N) : flush_result * bytecount_t :=
  if nwritten =? 0 then (Idle, f)
  else
    let r := if b_threshold f <=? wrap64 (b_counter f + nwritten) then Flush else Idle in
    (r, {| b_counter := wrap64 (b_counter f + nwritten) mod b_threshold f; b_threshold := b_threshold f |}).

(** Which flusher a backend owns; src/sink/file.cpp:35-49, the two factories' [create]. *)
Inductive flusher_t := FRepeat (f : repeat_t) | FBytes (f : bytecount_t).

(** Virtual dispatch of [flusher_t::update], src/sink/file/flusher.hpp:30. *)
Definition flusher_update (f : flusher_t) (nwritten : N) : flush_result * flusher_t :=
  match f with
  | FRepeat r => let '(x, r') := repeat_update r nwritten in (x, FRepeat r')
  | FBytes b => let '(x, b') := bytecount_update b nwritten in (x, FBytes b')
  end.

(** Results of feeding a sequence of write sizes to a flusher, as [backend_t::write]
    (src/sink/file.hpp:41-47) does call after call. *)
Fixpoint flusher_run (f : flusher_t) (sizes : list N) : list flush_result * flusher_t :=
  match sizes with
  | [] => ([], f)
  | n :: rest =>
      let '(r, f1) := flusher_update f n in
      let '(rs, f2) := flusher_run f1 rest in (r :: rs, f2)
  end.

(** ** Size strings *)

(** [std::isdigit] in the "C" locale on a byte below 128; src/sink/file.cpp:53. *)
Definition is_digit (c : ascii) : bool := (48 <=? N_of_ascii c) && (N_of_ascii c <=? 57).

Definition digit_val (c : ascii) : N := N_of_ascii c - 48.

(** src/sink/file.cpp:52-54, [find_if(!isdigit)]: longest prefix of digits, and the rest. *)
Fixpoint span_digits (s : bytes) : bytes * bytes :=
  match s with
  | [] => ([], [])
  | c :: s' => if is_digit c then let '(d, r) := span_digits s' in (c :: d, r) else ([], s)
  end.

(** [boost::lexical_cast<std::uint64_t>] on a string of digits: fails on the empty string and when
    the value does not fit in 64 bits; src/sink/file.cpp:57,61. The conversion is written with an
    overflow test at each digit. *)
Fixpoint lexical_u64_go (acc : N) (s : bytes) : option N :=
  match s with
  | [] => Some acc
  | c :: s' =>
      let a := 10 * acc + digit_val c in
      if a <? two64 then lexical_u64_go a s' else None
  end.
Definition lexical_u64 (s : bytes) : option N :=
  match s with [] => None | _ => lexical_u64_go 0 s end.

(** src/sink/file.cpp:64-72, the unit table ([std::map], looked up with [find]). *)
Definition unit_table : list (bytes * N) :=
  [ (B "B", 1); (B "kB", 1000); (B "MB", 1000000); (B "GB", 1000000000);
    (B "KiB", 1024); (B "MiB", 1048576); (B "GiB", 1073741824) ].

Fixpoint unit_find (t : list (bytes * N)) (u : bytes) : option N :=
  match t with
  | [] => None
  | (k, v) :: t' => if bytes_eqb k u then Some v else unit_find t' u
  end.

(** Outcomes of [parse_dunit]. [DUndefined]: [std::isdigit] called with a negative [char]
    (a byte >= 128 where [char] is signed) is undefined behaviour. *)
Inductive dunit_result := DOk (n : N) | DBadCast | DUnknownUnit (u : bytes) | DUndefined.

(** src/sink/file.cpp:51-80 [parse_dunit]. *)
Definition parse_dunit (encoded : bytes) : dunit_result :=
  let '(ds, rest) := span_digits encoded in
  match rest with
  | [] => match lexical_u64 encoded with Some n => DOk n | None => DBadCast end
  | c :: _ =>
      if 128 <=? N_of_ascii c then DUndefined
      else
        match lexical_u64 ds with
        | None => DBadCast
        | Some base =>
            match unit_find unit_table rest with
            | None => DUnknownUnit rest
            | Some m => DOk (wrap64 (base * m))
            end
        end
  end.
