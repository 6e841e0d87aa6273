(** Buffers as lists of cells that may not have been assigned. *)
From Verif Require Import Base FmtModel MembufModel.
Open Scope N_scope.

(** The part of the list a source refers to. *)
Definition part (c : cells) (src : source) : cells :=
  match src with Other s => map Some s | Own from to => firstn (N.to_nat (to - from)) (skipn (N.to_nat from) c) end.

(** What an operation does to the list; the new cells of [resize] may have any contents. *)
Inductive effect : op -> cells -> cells -> Prop :=
| effect_shrink n c : n <= length_N c -> effect (OResize n) c (firstn (N.to_nat n) c)
| effect_extend n c more : n = length_N (c ++ more) -> effect (OResize n) c (c ++ more)
| effect_reserve n c : effect (OReserve n) c c
| effect_clear c : effect OClear c []
| effect_push src c : effect (OPush src) c (c ++ part c src)
| effect_append src c : effect (OAppend src) c (c ++ part c src)
| effect_c_str c : effect OCStr c c.
Inductive effects : list op -> cells -> cells -> Prop :=
| effects_end c : effects [] c c
| effects_step o ops c d e : effect o c d -> effects ops d e -> effects (o :: ops) c e.

(** Operations a program can ask for: objects and sizes are below 2^63, one element is pushed. *)
Definition proper_op (o : op) : Prop :=
  match o with
  | OResize n | OReserve n => n < 2 ^ 63
  | OPush src => elements src = 1
  | OAppend src => elements src < 2 ^ 63
  | _ => True
  end.
(** Nothing of the buffer itself is appended to it. *)
Definition external (o : op) : Prop := match o with OPush (Own _ _) | OAppend (Own _ _) => False | _ => True end.

(** The size an operation needs, and the one it leaves. *)
Definition needs (o : op) (n : N) : N :=
  match o with
  | OResize m | OReserve m => m
  | OClear => 0
  | OPush _ | OCStr => n + 1
  | OAppend src => n + elements src
  end.
Definition leaves (o : op) (n : N) : N :=
  match o with
  | OResize m => m
  | OReserve _ | OCStr => n
  | OClear => 0
  | OPush _ => n + 1
  | OAppend src => n + elements src
  end.
Fixpoint peak (ops : list op) (n : N) : N := match ops with [] => 0 | o :: ops' => N.max (needs o n) (peak ops' (leaves o n)) end.
