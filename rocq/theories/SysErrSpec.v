(** Descriptions of system errors. *)
From Verif Require Import Base FmtModel SysErrModel.
From Verif Require StrSpec.
Open Scope N_scope.

(** The C library describes the error by [text]. GNU: the text is somewhere, or as much of it as fits is put into the buffer. *)
Definition gnu (text : bytes) (env : N -> answer) : Prop :=
  forall size, 0 < size -> env size = Elsewhere text \/ env size = Placed (firstn (N.to_nat (size - 1)) text).
(** XSI: the text is put into the buffer if it fits; otherwise the error is ERANGE, as the result or, in older versions, in [errno]. *)
Definition xsi (text : bytes) (env : N -> answer) : Prop :=
  forall size, 0 < size ->
    if length_N text <? size then exists e, env size = Returned 0 e text
    else exists e s, env size = Returned ERANGE e s \/ env size = Returned (-1) ERANGE s.

(** The text for an error without a description: the code, and the message in front of it if both fit into 500 bytes, where
    ten places are kept for a negative code. *)
Definition bare (code : Z) (message : bytes) (out : bytes) : Prop :=
  exists d, StrSpec.decimal code d
    /\ out = if length_N message + 8 + (if (code <? 0)%Z then 10 else length_N d) <=? 500
             then message ++ B ": error " ++ d else B "error " ++ d.
