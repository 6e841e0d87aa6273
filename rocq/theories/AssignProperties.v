(** C137-C138: attribute values as objects: what they hold after copies, moves and assignments, and the memory they own. *)
From Verif Require Import Base Values AssignModel AssignSpec AssignProofs AssignMoreProofs.

(** C137. Values behave like variables. In every program each value holds what was last put into it, whatever happens to the values it was copied from or
    to: constructions, copies, moves and assignments, in any order, also while memory is short - a copy then changes nothing. And every use of a value that
    exists, and every construction where there is none, is defined, and nothing else is. *)
Theorem C137_variables : forall inside ps s xs, run inside init ps = Some (s, xs) ->
  exists st, does_all inside empty ps xs st /\ (forall o v, st o = Some v <-> step inside s (Show o) = Some (s, Saw v)) /\
    (forall p, legal st p <-> step inside s p <> None).
Proof. exact variables_lemma. Qed.
Print Assumptions C137_variables.

(** C137. A value assigned to itself, even moved, keeps what it holds, in every state a program can reach. (Without the test the string would be cleared.) *)
Theorem C137_itself : forall inside ps s xs o v ok, run inside init ps = Some (s, xs) -> step inside s (Show o) = Some (s, Saw v) ->
  step inside s (AssignMove o o) = Some (s, Done) /\ step inside s (Assign o o ok) = Some (s, Done).
Proof.
  intros inside ps s xs o v ok _ E. cbn in *. destruct (s_objects s o); [|discriminate E]. rewrite Nat.eqb_refl. auto.
Qed.
Print Assumptions C137_itself.
Definition case_long : bytes := B "a text of more than fifteen bytes".
Definition case_longer : bytes := B "another text, which has many more bytes than the other one has, and then some more".
Definition case_program : list op :=
  [New 1 (VString case_long) true; New 2 (VInt 7) true; NewCopy 1 3 true; Assign 2 3 true; Show 3; Assign 1 3 true; NewMove 1 4; Show 1; Show 4;
   New 5 (VString case_longer) true; Assign 5 4 false; Show 4; Assign 5 4 true; Show 4; AssignMove 4 5; Show 4; Show 5; AssignMove 5 5; Show 5;
   NewCopy 5 6 false; AssignMove 2 5; Show 5; Show 2; Show 3].
Definition case_outs : list out :=
  [Done; Done; Done; Done; Saw (VInt 7); Done; Done; Saw (VString []); Saw (VString case_long);
   Done; BadAlloc; Saw (VString case_long); Done; Saw (VString case_longer); Done; Saw (VString []); Saw (VString case_longer); Done; Saw (VString case_longer);
   BadAlloc; Done; Saw (VInt 7); Saw (VInt 7); Saw (VString case_long)].
Example C137_case : option_map snd (run 15 init case_program) = Some case_outs.
Proof. vm_compute. reflexivity. Qed.

(** C138. In every program each block of the heap belongs to the string of exactly one value that exists. *)
Theorem C138_owned : forall inside ps s xs, run inside init ps = Some (s, xs) ->
  forall b, h_blocks (s_heap s) b <> None -> exists o, s_objects s o = Some (Owned (Block b)) /\ forall o', s_objects s o' = Some (Owned (Block b)) -> o' = o.
Proof. exact blocks_lemma. Qed.
Print Assumptions C138_owned.

(** C138. Once a program has destroyed all its values, which is defined, all their memory is free. *)
Theorem C138_freed : forall inside ps s xs, run inside init ps = Some (s, xs) -> (forall o, s_objects s o = None) -> forall b, h_blocks (s_heap s) b = None.
Proof. exact all_freed. Qed.
Print Assumptions C138_freed.
Definition case_end : list op := case_program ++ map Destroy [1; 2; 3; 4; 5]%nat.
Definition after (r : option (state * list out)) : state := match r with Some (s, _) => s | None => init end.
Example C138_case : let s := after (run 15 init case_program) in let e := after (run 15 init case_end) in
  map (fun b => match h_blocks (s_heap s) b with Some _ => true | None => false end) [0; 1; 2; 3; 4]%nat = [false; false; true; true; false] /\
  h_next (s_heap e) = 5%nat /\ (forall o, s_objects e o = None) /\ map (h_blocks (s_heap e)) [0; 1; 2; 3; 4]%nat = [None; None; None; None; None].
Proof.
  split; [vm_compute; reflexivity|]. split; [vm_compute; reflexivity|]. split; [|vm_compute; reflexivity].
  intros o. do 7 (destruct o as [|o]; [vm_compute; reflexivity|]). vm_compute. reflexivity.
Qed.
