(** C29, C30: where the JSON formatter puts the fields. *)
From Verif Require Import Base Decimal Values StdMap JsonFmtModel JsonFmtSpec JsonFmtProofs.

(** C29. For every record, environment and configuration: if the routes are JSON pointers in which no field stands in
    the way of another, the document holds exactly the fields, each at its place, in order. (Severities are ints;
    no vector has more than 2^63 elements.) *)
Theorem C29_fields_placed : forall fmt e calls r builtins attrs fb fa,
  (- 2 ^ 31 <= r_severity r < 2 ^ 31)%Z -> (Z.of_nat (length (severities calls)) <= 2 ^ 63)%Z ->
  reported e calls r builtins attrs ->
  Forall2 (field_of fmt calls false) builtins fb -> Forall2 (field_of fmt calls true) attrs fa ->
  no_conflict (fb ++ fa) ->
  exists t, document fmt e (build calls) r = Done t /\ holds_exactly t (fb ++ fa).
Proof. exact document_lemma. Qed.
Print Assumptions C29_fields_placed.

Example C29_hypotheses_case :
  let calls := [Route (B "/a") [B "x"]; Unique] in
  let r := Rec [] (B "hi") (-3) 0 255 [[(B "x", VInt 1)]; [(B "x", VInt 2)]] in
  exists builtins attrs fb fa, reported (Env 7 8 (fun p => p) 99) calls r builtins attrs /\
    Forall2 (field_of (fun _ _ => None) calls false) builtins fb /\ Forall2 (field_of (fun _ _ => None) calls true) attrs fa /\
    fa = [Field [B "a"] (B "x") (LInt 1)] /\ length fb = 6%nat /\ no_conflict (fb ++ fa).
Proof.
  intros calls r. eexists. exists [(B "x", VInt 1)].
  exists [Field [] (B "message") (LStr (B "hi")); Field [] (B "lwp") (LUint 8); Field [] (B "thread") (LStr (B "0xff"));
          Field [] (B "process") (LUint 7); Field [] (B "severity") (LInt (-3)); Field [] (B "timestamp") (LInt 99)].
  exists [Field [B "a"] (B "x") (LInt 1)].
  assert (P : forall attr n v p, format_of calls n = None -> pointer_text p = route_of (build calls) n -> new_name calls n = n ->
    field_of (fun _ _ => None) calls attr (n, v) (Field p n (plain_value v))).
  { intros attr n v p F E M. rewrite <- M at 2. eapply field_plain; [exact F|apply route_routed|symmetry; exact E]. }
  split; [|split; [|split; [|split; [reflexivity|split; [reflexivity|]]]]].
  - apply (reported_intro _ _ _ (VInt (-3)) [(B "x", VInt 1)]).
    + constructor. left. reflexivity.
    + intros _. apply first_new; [intros []|]. apply first_again; [left; reflexivity|]. apply first_nil.
    + intros X. destruct X. right. left. reflexivity.
  - repeat (constructor; [apply (P false); vm_compute; reflexivity|]). constructor.
  - constructor; [apply (P true _ (VInt 1)); vm_compute; reflexivity|constructor].
  - split.
    + intros f g Hf Hg [c E]. cbn [app In] in Hf, Hg.
      repeat (destruct Hf as [<-|Hf]; [repeat (destruct Hg as [<-|Hg]; [discriminate E|]); destruct Hg|]). destruct Hf.
    + intros f Hf. cbn [app In] in Hf. repeat (destruct Hf as [<-|Hf]; [constructor|]). destruct Hf.
Qed.

(** There is always such a list of fields to report. *)
Theorem C29_reported_exists : forall e calls r, exists builtins attrs, reported e calls r builtins attrs.
Proof. exact reported_total. Qed.
Print Assumptions C29_reported_exists.

(** Every name has exactly one route. *)
Theorem C29_one_route : forall calls n, exists route, routed calls n route /\ forall route', routed calls n route' -> route' = route.
Proof. intros calls n. exists (route_of (build calls) n). split; [apply route_routed|]. intros r H. exact (routed_fun _ _ _ _ H (route_routed calls n)). Qed.
Print Assumptions C29_one_route.

(** A configuration, a record and an environment for the examples. *)
Definition example_calls : list call :=
  [Route (B "/a") [B "x"; B "y"]; RouteRest (B "/rest"); Route (B "/a/b~1c") [B "x"; B "z"]; Route (B "") [B "message"];
   Rename (B "x") (B "message"); Severity [B "debug"; B "info"]; Format (B "z") (B "{}!")].
Definition example_env : environment := Env 7 8 (fun p => p) 99.
Definition example_record : record :=
  Rec [] (B "hi") 1 0 255 [[(B "x", VInt (-1)); (B "z", VString (B "v" ++ [NUL]))]; [(B "x", VNull); (B "q", VBool true)]].
Definition example_fmt (spec : bytes) (v : value) : option bytes := match v with VString s => Some (s ++ B "!") | _ => None end.

Example C29_document_case : document example_fmt example_env (build example_calls) example_record = Done (JObj
  [(B "message", JLeaf (LStr (B "hi")));
   (B "rest", JObj [(B "lwp", JLeaf (LUint 8)); (B "thread", JLeaf (LStr (B "0xff"))); (B "process", JLeaf (LUint 7));
                    (B "severity", JLeaf (LStr (B "info"))); (B "timestamp", JLeaf (LInt 99)); (B "q", JLeaf (LBool true))]);
   (B "a", JObj [(B "message", JLeaf (LInt (-1))); (B "b/c", JObj [(B "z", JLeaf (LStr (B "v!")))]);
                 (B "message", JLeaf LNull)])]).
Proof. vm_compute. reflexivity. Qed.

(** C29, false in general: a route through a field's place replaces the field. Here the message is lost. *)
Theorem C29_field_replaced_refuted : exists calls r t,
  document (fun _ _ => None) example_env (build calls) r = Done t /\
  nodes [B "message"] t = [JObj [(B "x", JObj [(B "a", JLeaf (LInt 1))])]] /\
  ~ In (LStr (B "lost")) (concat (map (fun p => flat_map (fun n => match n with JLeaf l => [l] | _ => [] end) (nodes p t))
      [[B "message"]; [B "message"; B "x"]; [B "message"; B "x"; B "a"]])).
Proof.
  exists [Route (B "/message/x") [B "a"]], (Rec [] (B "lost") 0 0 0 [[(B "a", VInt 1)]]).
  eexists. split; [vm_compute; reflexivity|]. split; [vm_compute; reflexivity|]. vm_compute. intuition discriminate.
Qed.
Print Assumptions C29_field_replaced_refuted.

(** C29, false: a route that ends at a field is undefined behaviour. *)
Theorem C29_route_to_field_refuted : exists calls r,
  document (fun _ _ => None) example_env (build calls) r = Undefined.
Proof. exists [Route (B "/message") [B "a"]], (Rec [] (B "m") 0 0 0 [[(B "a", VInt 1)]]). vm_compute. reflexivity. Qed.
Print Assumptions C29_route_to_field_refuted.

(** C29, false: a number in a route makes an array, with nulls up to that position. *)
Theorem C29_array_padding_refuted : exists calls r t,
  document (fun _ _ => None) example_env (build calls) r = Done t /\
  nodes [B "list"] t = [JArr [JLeaf LNull; JLeaf LNull; JObj [(B "a", JLeaf (LInt 1))]]].
Proof.
  exists [Route (B "/list/2") [B "a"]], (Rec [] (B "m") 0 0 0 [[(B "a", VInt 1)]]).
  eexists. split; [vm_compute; reflexivity|]. vm_compute. reflexivity.
Qed.
Print Assumptions C29_array_padding_refuted.

(** C30. With [Unique] the attributes reported (C29: exactly these are placed) are, for every name that occurs, the
    first value of that name, and every name is reported once. *)
Theorem C30_unique_keeps_first : forall e calls r builtins attrs,
  In Unique calls -> reported e calls r builtins attrs ->
  NoDup (map fst attrs) /\
  forall n v, In (n, v) attrs <-> exists a b, concat (r_attributes r) = a ++ ((n, v) : attribute) :: b /\ ~ In n (map fst a).
Proof.
  intros e calls r builtins attrs U R. inversion R as [sev attrs' _ F _]; subst. specialize (F U).
  split; [exact (first_of_each_nodup _ _ _ F)|]. intros n v. rewrite (first_of_each_first _ _ _ F). cbn. tauto.
Qed.
Print Assumptions C30_unique_keeps_first.
Example C30_unique_case : document (fun _ _ => None) example_env (build [Unique; Route (B "/a") [B "x"; B "q"]]) example_record = Done (JObj
  [(B "message", JLeaf (LStr (B "hi"))); (B "lwp", JLeaf (LUint 8)); (B "thread", JLeaf (LStr (B "0xff"))); (B "process", JLeaf (LUint 7));
   (B "severity", JLeaf (LInt 1)); (B "timestamp", JLeaf (LInt 99));
   (B "a", JObj [(B "x", JLeaf (LInt (-1))); (B "q", JLeaf (LBool true))]); (B "z", JLeaf (LStr (B "v" ++ [NUL])))]).
Proof. vm_compute. reflexivity. Qed.

(** C30. Every object of the document has distinct keys if no two fields have the same place. *)
Theorem C30_distinct_keys : forall t fs p ms,
  holds_exactly t fs -> no_conflict fs -> NoDup (map (fun f => f_path f ++ [f_key f]) fs) ->
  In (JObj ms) (nodes p t) -> NoDup (map fst ms).
Proof. exact distinct_keys_lemma. Qed.
Print Assumptions C30_distinct_keys.

(** C30, false: an attribute called like a built-in field gives a duplicate key in spite of [Unique] ... *)
Theorem C30_builtin_name_refuted : exists calls r ms,
  In Unique calls /\ document (fun _ _ => None) example_env (build calls) r = Done (JObj ms) /\ ~ NoDup (map fst ms).
Proof.
  exists [Unique], (Rec [] (B "m") 0 0 0 [[(B "message", VInt 1)]]). eexists. split; [left; reflexivity|].
  split; [vm_compute; reflexivity|]. intros N. apply NoDup_cons_iff in N as [N _]. apply N. vm_compute. tauto.
Qed.
Print Assumptions C30_builtin_name_refuted.

(** ... and so do two attributes renamed to the same key. *)
Theorem C30_renamed_refuted : exists calls r t ms,
  In Unique calls /\ ~ In (B "k") (map fst (concat (r_attributes r))) /\
  document (fun _ _ => None) example_env (build calls) r = Done t /\ In (JObj ms) (nodes [B "o"] t) /\ ~ NoDup (map fst ms).
Proof.
  exists [Unique; Route (B "/o") [B "a"; B "b"]; Rename (B "a") (B "k"); Rename (B "b") (B "k")],
    (Rec [] (B "m") 0 0 0 [[(B "a", VInt 1); (B "b", VInt 2)]]).
  eexists. eexists. split; [left; reflexivity|]. split; [vm_compute; intuition discriminate|]. split; [vm_compute; reflexivity|].
  split; [vm_compute; left; reflexivity|]. intros N. apply NoDup_cons_iff in N as [N _]. apply N. vm_compute. tauto.
Qed.
Print Assumptions C30_renamed_refuted.
