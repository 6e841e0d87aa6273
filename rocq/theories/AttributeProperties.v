(** C45, C46, C69: attribute values. *)
From Verif Require Import Base StringViewModel StringViewSpec AttributeModel AttributeSpec AttributeProofs.
Open Scope Z_scope.

(** C45. An integer of any type is read back unchanged, as a signed or an unsigned number as its type says. *)
Theorem C45_integers : forall t z, in_type t z ->
  (signed_type t -> get_value TInt (make_value (XInteger t z)) = Some (GInt z) /\ get_view TInt (make_view (XInteger t z)) = Some (HInt z))
  /\ (~ signed_type t -> exists n, Z.of_N n = z /\ get_value TUint (make_value (XInteger t z)) = Some (GUint n)
        /\ get_view TUint (make_view (XInteger t z)) = Some (HUint n)).
Proof. exact integer_lemma. Qed.
Print Assumptions C45_integers.
Example C45_integers_case : in_type CLong (- 2 ^ 63) /\ signed_type CLong /\ in_type CUlonglong (2 ^ 64 - 1) /\ ~ signed_type CUlonglong
  /\ make_value (XInteger CChar (-128)) = VInt (-128) /\ make_value (XInteger CUchar 255) = VUint 255.
Proof.
  refine (conj _ (conj _ (conj _ (conj _ (conj eq_refl eq_refl))))); [cbn; lia|cbn; tauto|cbn; lia|].
  intros [J|[J|[J|[J|[J|[J|[]]]]]]]; discriminate.
Qed.

(** C45. Reading as a type succeeds exactly for the type in use, otherwise it is std::bad_cast (there is no reading of
    function values out of owned ones). *)
Theorem C45_get : forall t v w, (get_value t v <> None <-> t = value_kind v /\ t <> TFunction) /\ (get_view t w <> None <-> t = kind w).
Proof. exact get_lemma. Qed.
Print Assumptions C45_get.
Example C45_get_case : get_value TUint (make_value (XInteger CInt 42)) = None /\ get_value TInt (make_value (XInteger CInt 42)) = Some (GInt 42)
  /\ get_view TDouble (make_view (XInteger CInt 42)) = None.
Proof. repeat split. Qed.

(** C45. Owning the view of a value gives the value again, a function value its text. *)
Theorem C45_own_view : forall v, into_owned (into_view v) = Done (match v with VFun f => VString (f_text f) | _ => v end).
Proof. exact owned_lemma. Qed.
Print Assumptions C45_own_view.
Example C45_own_view_case : into_owned (into_view (VString (B "a" ++ [NUL] ++ B "b"))) = Done (VString (B "a" ++ [NUL] ++ B "b")).
Proof. reflexivity. Qed.
(** C45. Viewing what was owned from a view gives an equal view. *)
Theorem C45_view_own : forall w, readable w -> (forall f, w <> WFun f) ->
  exists v, into_owned w = Done v /\ kind (into_view v) = kind w /\ (same_content w w -> same_content (into_view v) w).
Proof. exact viewed_lemma. Qed.
Print Assumptions C45_view_own.
Example C45_view_own_case : let w := WString (View (Some (B "hello world")) 5) in readable w /\ (forall f, w <> WFun f) /\ into_owned w = Done (VString (B "hello")).
Proof. refine (conj _ (conj _ eq_refl)); [exists (B "hello"); exact (shows_bytes (B "hello") (B " world"))|discriminate]. Qed.

(** C46. Equality of views is decided and means the same content. *)
Theorem C46_content : forall a b, readable a -> readable b -> sized a -> sized b -> exists r, view_equal a b = Done r /\ (r = true <-> same_content a b).
Proof. exact equal_lemma. Qed.
Print Assumptions C46_content.
(** C46. It is symmetric, transitive, holds between views of one kind only, and is reflexive for all but NaN. *)
Theorem C46_equivalence : forall a b c, readable a -> readable b -> readable c -> sized a -> sized b -> sized c ->
  (view_equal a b = Done true -> view_equal b a = Done true)
  /\ (view_equal a b = Done true -> view_equal b c = Done true -> view_equal a c = Done true)
  /\ (view_equal a a = Done true <-> forall n, a = WDouble n -> ~ nan n)
  /\ (view_equal a b = Done true -> kind a = kind b).
Proof. exact equivalence_lemma. Qed.
Print Assumptions C46_equivalence.
Example C46_case : let a := WString (View (Some (B "hello world")) 5) in let b := WString (view_string (B "hello")) in
  readable a /\ readable b /\ sized a /\ sized b /\ view_equal a b = Done true /\ view_equal a (WInt 1) = Done false
  /\ view_equal (WInt 1) (WUint 1) = Done false.
Proof.
  refine (conj _ (conj _ (conj I (conj I _)))).
  - exists (B "hello"). exact (shows_bytes (B "hello") (B " world")).
  - exists (B "hello"). exact (shows_bytes (B "hello") [NUL]).
  - repeat split; vm_compute; reflexivity.
Qed.
(** C46. Refuted for NaN, which is not equal to itself; and equal views may show different values, 0 and -0. *)
Theorem C46_nan_refuted : forall n, (n < 2 ^ 64)%N -> nan n -> view_equal (WDouble n) (WDouble n) = Done false.
Proof. exact nan_lemma. Qed.
Print Assumptions C46_nan_refuted.
Example C46_nan_case : nan (2047 * 2 ^ 52 + 2 ^ 51) /\ (2047 * 2 ^ 52 + 2 ^ 51 < 2 ^ 64)%N.
Proof. split; [exists 0%N, (2 ^ 51)%N; lia|reflexivity]. Qed.
Theorem C46_zero_refuted : exists a b, a <> b /\ view_equal (WDouble a) (WDouble b) = Done true.
Proof. exists 0%N, (2 ^ 63)%N. split; [discriminate|reflexivity]. Qed.
Print Assumptions C46_zero_refuted.

(** C69. Text given as a std::string or as a literal is stored as it is. *)
Theorem C69_text : forall s, get_value TString (make_value (XString s)) = Some (GString s)
  /\ get_value TString (make_value (XArray (s ++ [NUL]))) = Some (GString s)
  /\ (exists v, get_view TString (make_view (XString s)) = Some (HString v) /\ shows v s)
  /\ (exists v, get_view TString (make_view (XArray (s ++ [NUL]))) = Some (HString v) /\ shows v s).
Proof. exact text_lemma. Qed.
Print Assumptions C69_text.
Example C69_text_case : make_value (XArray (B "le vinegret" ++ [NUL])) = VString (B "le vinegret").
Proof. reflexivity. Qed.
(** C69. Refuted for a pointer to characters: the attribute is the boolean true. *)
Theorem C69_pointer_refuted : forall s rest, make_value (XPointer (Some (s ++ [NUL] ++ rest))) = VBool true
  /\ make_view (XPointer (Some (s ++ [NUL] ++ rest))) = WBool true.
Proof. intros. split; reflexivity. Qed.
Print Assumptions C69_pointer_refuted.
(** C69. Refuted for a buffer holding a C string: the whole buffer but its last byte is stored. *)
Theorem C69_buffer_refuted : forall s junk last, exists t, make_value (XArray (s ++ [NUL] ++ junk ++ [last])) = VString t /\ t = s ++ [NUL] ++ junk /\ t <> s.
Proof. exact buffer_lemma. Qed.
Print Assumptions C69_buffer_refuted.
