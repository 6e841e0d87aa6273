(** C42: reading the configuration. *)
From Verif Require Import Base ConfigModel ConfigSpec ConfigProofs.

(** C42. Following a path finds the value at that path, and the node knows the path. *)
Theorem C42_found : forall v path n, plain_path path ->
  (walk v path = Some n <-> at_path v path (n_value n) /\ n_cursor n = path_text path).
Proof. exact found_lemma. Qed.
Print Assumptions C42_found.

(** C42. Every conversion gives the exact value, nothing when there is none, or an error with the place and the kinds. *)
Theorem C42_convert : forall v path, parsed v -> plain_path path -> (forall s, at_path v path (JString s) -> no_nul s) ->
  reads opt_bool is_bool_of (B "bool") v path /\
  reads opt_sint64 is_sint64_of (B "int64") v path /\
  reads opt_uint64 is_uint64_of (B "uint64") v path /\
  reads opt_double is_double_of (B "double") v path /\
  reads opt_string is_string_of (B "string") v path.
Proof. exact convert_lemma. Qed.
Print Assumptions C42_convert.

Definition C42_sample : json :=
  JObject [(B "root", JArray [JObject [(B "type", JString (B "blocking")); (B "factor", JInt 7)]]); (B "on", JBool true)].

Example C42_sample_parsed : parsed C42_sample.
Proof. apply ints_ok_parsed. vm_compute. reflexivity. Qed.
Example C42_case :
  opt_uint64 (walk C42_sample [Key (B "root"); Index 0; Key (B "factor")]) = Ret (Some 7%N) /\
  opt_string (walk C42_sample [Key (B "root"); Index 0; Key (B "type")]) = Ret (Some (B "blocking")) /\
  opt_uint64 (walk C42_sample [Key (B "root"); Index 1; Key (B "factor")]) = Ret None /\
  opt_bool (walk C42_sample [Key (B "root"); Index 0; Key (B "factor")]) =
    Throw (TypeMismatch (B "/root/0/factor") (B "bool") (B "number")).
Proof. vm_compute. repeat split. Qed.

(** C42. The loop over an array meets every element in order, each with its own path. *)
Theorem C42_each : forall v path, plain_path path ->
  (forall l, at_path v path (JArray l) -> exists nodes, opt_each (walk v path) = Ret nodes /\ map n_value nodes = l /\
     forall i n, nth_error nodes i = Some n -> n_cursor n = path_text (path ++ [Index (N.of_nat i)])) /\
  ((~ exists w, at_path v path w) -> opt_each (walk v path) = Ret []) /\
  (forall w name, at_path v path w -> (forall l, w <> JArray l) -> named w name ->
     opt_each (walk v path) = Throw (TypeMismatch (place path) (B "array") name)).
Proof. exact each_lemma. Qed.
Print Assumptions C42_each.

(** C42. The loop over an object meets every member in order, repeated names included. *)
Theorem C42_each_map : forall v path, plain_path path ->
  (forall l, at_path v path (JObject l) -> Forall no_nul (map fst l) -> exists nodes, opt_each_map (walk v path) = Ret nodes /\
     map (fun p => (fst p, n_value (snd p))) nodes = l /\
     Forall (fun p => n_cursor (snd p) = path_text (path ++ [Key (fst p)])) nodes) /\
  ((~ exists w, at_path v path w) -> opt_each_map (walk v path) = Ret []) /\
  (forall w name, at_path v path w -> (forall l, w <> JObject l) -> named w name ->
     opt_each_map (walk v path) = Throw (TypeMismatch (place path) (B "object") name)).
Proof. exact each_map_lemma. Qed.
Print Assumptions C42_each_map.

Example C42_each_case :
  opt_each (walk C42_sample [Key (B "root")]) =
    Ret [Node (JObject [(B "type", JString (B "blocking")); (B "factor", JInt 7)]) (B "/root/0")] /\
  opt_each (walk C42_sample []) = Throw (TypeMismatch (B "/") (B "array") (B "object")) /\
  opt_each_map (walk C42_sample [Key (B "root"); Index 0]) =
    Ret [(B "type", Node (JString (B "blocking")) (B "/root/0/type")); (B "factor", Node (JInt 7) (B "/root/0/factor"))].
Proof. vm_compute. repeat split. Qed.

(** C42, refuted: errors of different places can be the same, as names are not escaped in the place. *)
Theorem C42_same_place_refuted : exists v p1 p2,
  plain_path p1 /\ plain_path p2 /\ at_path v p1 (JInt 1) /\ at_path v p2 (JInt 2) /\
  opt_string (walk v p1) = opt_string (walk v p2) /\ (exists e, opt_string (walk v p1) = Throw e).
Proof. exact same_place_lemma. Qed.
Print Assumptions C42_same_place_refuted.

(** C42, refuted: the root and its member with the empty name are the same place in errors. *)
Theorem C42_root_place_refuted : exists v p1 p2, p1 <> p2 /\ plain_path p1 /\ plain_path p2 /\
  (exists e, opt_each (walk v p1) = Throw e /\ opt_each (walk v p2) = Throw e).
Proof. exact root_place_lemma. Qed.
Print Assumptions C42_root_place_refuted.

(** C42, refuted: a text with a NUL in the configuration is read up to the NUL, without an error. *)
Theorem C42_nul_value_refuted : exists v s t, at_path v [] (JString s) /\ opt_string (walk v []) = Ret (Some t) /\ t <> s.
Proof. exact nul_value_lemma. Qed.
Print Assumptions C42_nul_value_refuted.

(** C42, refuted: a member with a NUL in its name is not found. *)
Theorem C42_nul_key_refuted : exists v path w, at_path v path w /\ walk v path = None.
Proof. exact nul_key_lemma. Qed.
Print Assumptions C42_nul_key_refuted.

(** C42, refuted: and instead of a member that does not exist, one whose name is cut is found. *)
Theorem C42_nul_other_refuted : exists v path w, (~ exists u, at_path v path u) /\ exists n, walk v path = Some n /\ n_value n = w.
Proof. exact nul_other_lemma. Qed.
Print Assumptions C42_nul_other_refuted.
