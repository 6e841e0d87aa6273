(** A log call as a program writes it, by the facade: from the format string and its arguments in memory to what leaves the process. The model
    of the facade (MetaFormatModel) and that of a configured logger (SystemModel) put together; here the message is a view into memory. *)
From Verif Require Import Base Values RootModel FactoriesModel SystemModel.
From Verif Require FmtModel MetaFormatModel StrModel StringViewModel.

(** What a program says: the arguments of [logger_facade::log] (include/blackhole/extensions/facade.hpp:46-63), the attributes of the
    wrappers it goes through (outermost first) and of the scopes, the thread, the time and the surroundings as in SystemModel.call.
    [s_behind] is what follows the text in the storage of the MemoryWriter (facade.hpp:144, facade.inl.hpp:20-23; the storage is not
    initialised and no NUL is written behind the text). *)
Record said := Said {
  s_severity : Z;
  s_pattern : StringViewModel.view;
  s_args : list MetaFormatModel.value;
  s_attributes : option attribute_list;
  s_wrappers : list attribute_list;
  s_scoped : attribute_pack;
  s_behind : bytes;
  s_tid : N;
  s_now : Z;
  s_env : surroundings;
  s_circumstances : nat -> nat -> circumstances
}.

(** facade.hpp:113, :147; facade.inl.hpp:91-92: the pack has the list given, if there is one. src/wrapper.cpp:23-31: each wrapper adds
    its own behind it; src/root.cpp:182-184: then those of the scopes. *)
Definition pack_of (u : said) : attribute_pack := match s_attributes u with Some l => [l] | None => [] end ++ s_wrappers u.

Section Say.
Variable dbl : FmtModel.spec -> N -> bytes.
Variable dbl_json : N -> bytes.
Variable double_of : bytes -> N.
Variable what : FmtModel.error -> bytes.
Variable json_fmt : bytes -> value -> option bytes.

(** The view the record has in the end: without arguments it stays the pattern (src/record.cpp:25, 80-83: the supplier of root.cpp:152-158 returns
    a null view), with arguments it is the writer's text (facade.inl.hpp:20-23). *)
Definition message (u : said) : FmtModel.result StrModel.view :=
  match s_args u with
  | [] => FmtModel.Ok (StrModel.View (StringViewModel.v_data (s_pattern u)) (StringViewModel.v_size (s_pattern u)))
  | _ => match MetaFormatModel.l_text (MetaFormatModel.facade_log dbl (s_pattern u) (s_args u)) with
         | FmtModel.Ok s => FmtModel.Ok (StrModel.View (Some (s ++ s_behind u)) (FmtModel.length_N s))
         | FmtModel.Error e => FmtModel.Error e
         | FmtModel.Undefined => FmtModel.Undefined
         end
  end.

(** The record (src/record.cpp:17-34, 80-87); [v] is its message in memory. Nothing reads the pattern of a record, so its bytes are
    those within its object. *)
Definition record_said (u : said) (v : StrModel.view) : record :=
  {| r_message := StrModel.viewed (StrModel.View (StringViewModel.v_data (s_pattern u)) (StringViewModel.v_size (s_pattern u)));
     r_formatted := StrModel.viewed v;
     r_severity := s_severity u; r_timestamp := s_now u; r_tid := s_tid u; r_attributes := pack_of u ++ s_scoped u |}.

(** As SystemModel.render, but the string formatter is given the message where it is (src/formatter/string.cpp:183-186). The
    others copy the bytes of the view: src/formatter/tskv.cpp:107-109, json.cpp:222-224. *)
Definition render_in_place (f : formatter) (e : surroundings) (r : record) (v : StrModel.view) : made :=
  match f with
  | FString tokens sevmap =>
      let r' := srecord_of e r in
      match StrModel.format dbl double_of
              (match sevmap with Some names => StrModel.list_map dbl names | None => StrModel.number_map dbl end)
              (StrModel.SRec v (StrModel.r_severity r') (StrModel.r_nanoseconds r') (StrModel.r_tid r') (StrModel.r_pack r') (StrModel.r_pid r')
                 (StrModel.r_lwp r') (StrModel.r_procname r') (StrModel.r_thread_name r') (StrModel.r_stamp r') (StrModel.r_junk r')) tokens with
      | StrModel.Done s => Text s
      | StrModel.Refused x => Raises (StdExn (what x))
      | StrModel.Missing n => Raises (StdExn (B "required attribute '" ++ n ++ B "' not found"))
      | StrModel.Undef => Undefined
      end
  | _ => render dbl dbl_json double_of what json_fmt f e r
  end.

(** As SystemModel.handle_all: src/root.cpp:191-199 with src/handler/blocking.cpp:26-35. *)
Fixpoint handle_in_place (w : world) (env : surroundings) (r : record) (v : StrModel.view) (q : nat -> nat -> circumstances) (i : nat)
  (hs : list working) : option (world * list working * list event) :=
  match hs with
  | [] => Some (w, [], [])
  | (f, sinks) :: hs' =>
      match render_in_place f env r v with
      | Undefined => None
      | Raises e =>
          match handle_in_place (complain w e) env r v q (S i) hs' with
          | None => None
          | Some (w2, hs2, evs) => Some (w2, (f, sinks) :: hs2, Complained i e :: evs)
          end
      | Text text =>
          match emit_all w (e_tty env) (r_severity r) text (q i) i 0 sinks with
          | None => None
          | Some (w1, sinks1, evs1, e) =>
              match handle_in_place (match e with Some e => complain w1 e | None => w1 end) env r v q (S i) hs' with
              | None => None
              | Some (w2, hs2, evs2) => Some (w2, (f, sinks1) :: hs2, evs1 ++ match e with Some e => [Complained i e] | None => [] end ++ evs2)
              end
          end
      end
  end.

(** The call: src/root.cpp:175-201 with the filter of a logger made by the builder, which accepts all (src/registry.cpp:73). A
    [FormatError] of the facade's function (:188) leaves the call before any handler is asked. The last part is what the caller gets. *)
Definition say (w : world) (hs : list working) (u : said) : option (world * list working * list event * result unit) :=
  match message u with
  | FmtModel.Undefined => None
  | FmtModel.Error e => Some (w, hs, [], Throw (StdExn (what e)))
  | FmtModel.Ok v =>
      match handle_in_place w (s_env u) (record_said u v) v (s_circumstances u) 0 hs with
      | None => None
      | Some (w1, hs1, evs) => Some (w1, hs1, evs, Ret tt)
      end
  end.

(** A program that catches what its calls throw. *)
Fixpoint say_all (w : world) (hs : list working) (us : list said) : option (world * list working * list event * list (result unit)) :=
  match us with
  | [] => Some (w, hs, [], [])
  | u :: us' =>
      match say w hs u with
      | None => None
      | Some (w1, hs1, evs1, x) =>
          match say_all w1 hs1 us' with
          | None => None
          | Some (w2, hs2, evs2, xs) => Some (w2, hs2, evs1 ++ evs2, x :: xs)
          end
      end
  end.
End Say.
