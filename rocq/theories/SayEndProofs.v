(** Proofs: from what a program says to the file. *)
From Verif Require Import Base Values RootModel FactoriesModel SystemModel SayModel SaySpec SayProofs SayMoreProofs.
From Verif Require FmtModel FmtSpec MetaFormatModel StrModel StrSpec StringViewModel SystemSpec SystemProofs FileSinkSpec ParserModel.
Import SystemSpec.

Section End_.
Variable dbl : FmtModel.spec -> N -> bytes.
Variable dbl_json : N -> bytes.
Variable double_of : bytes -> N.
Variable what : FmtModel.error -> bytes.
Variable json_fmt : bytes -> value -> option bytes.
Notation say := (say dbl dbl_json double_of what json_fmt).
Notation say_all := (say_all dbl dbl_json double_of what json_fmt).
Notation log := (log dbl dbl_json double_of what json_fmt).
Notation log_all := (log_all dbl dbl_json double_of what json_fmt).

(** ---- what is behind the text ---- *)

Lemma behind_lemma w hs u b1 b2 : MetaFormatModel.l_text (MetaFormatModel.facade_log dbl (s_pattern u) (s_args u)) <> FmtModel.Ok [] ->
  say w hs (behind u b1) = say w hs (behind u b2).
Proof.
  intros NE. destruct (s_args u) as [|a args] eqn:EA.
  - unfold SayModel.say, message. cbn [behind s_args s_pattern]. rewrite EA. reflexivity.
  - assert (M : forall b, message dbl (behind u b) = match MetaFormatModel.l_text (MetaFormatModel.facade_log dbl (s_pattern u) (a :: args)) with
         | FmtModel.Ok s => FmtModel.Ok (StrModel.View (Some (s ++ b)) (FmtModel.length_N s))
         | FmtModel.Error e => FmtModel.Error e
         | FmtModel.Undefined => FmtModel.Undefined end).
    { intros b. unfold message. cbn [behind s_args s_pattern s_behind]. rewrite EA. reflexivity. }
    destruct (MetaFormatModel.l_text (MetaFormatModel.facade_log dbl (s_pattern u) (a :: args))) as [s|e|] eqn:EL.
    + assert (C : forall b, calm_view (StrModel.View (Some (s ++ b)) (FmtModel.length_N s))).
      { intros b. exists s, b. split; [reflexivity|]. intros ->. exfalso. exact (NE eq_refl). }
      rewrite (say_calm dbl dbl_json double_of what json_fmt w hs (behind u b1) _ (M b1) (C b1)).
      rewrite (say_calm dbl dbl_json double_of what json_fmt w hs (behind u b2) _ (M b2) (C b2)). rewrite !viewed_front. reflexivity.
    + rewrite !(say_error dbl dbl_json double_of what json_fmt w hs _ e) by apply M. reflexivity.
    + unfold SayModel.say. rewrite !M. reflexivity.
Qed.

(** ---- all or nothing ---- *)

Lemma nothing_lemma w hs u w' hs' evs e : say w hs u = Some (w', hs', evs, Throw e) -> w' = w /\ hs' = hs /\ evs = [].
Proof.
  unfold SayModel.say. destruct (message dbl u) as [v|x|]; [|intros H; injection H as <- <- <- _; auto|discriminate].
  destruct (handle_in_place _ _ _ _ _ _ _ _ _ _ _ _) as [[[w1 h1] e1]|]; discriminate.
Qed.
Lemma stammers_lemma w hs u : stammers u -> say w hs u = Some (w, hs, [], Throw (StdExn (what FmtModel.EIndexRange))).
Proof. intros H. apply say_error. apply stammers_message. exact H. Qed.

(** ---- the same calls ---- *)

Definition same_call (u : said) (c : call) : Prop :=
  (exists t, says dbl u t /\ c = call_said u (Ret (SView t))) \/ (stammers u /\ c = call_said u (Throw (StdExn (what FmtModel.EIndexRange)))).
Definition got (c : call) : result unit := match c_supplier c with Ret _ => Ret tt | Throw e => Throw e end.

Lemma say_same u c w hs : same_call u c -> say w hs u = match log w hs c with Some (w1, hs1, evs) => Some (w1, hs1, evs, got c) | None => None end.
Proof.
  intros [(t & S1 & ->)|[S1 ->]].
  - destruct (says_message dbl u t S1) as (v & M & C & <-). rewrite (say_calm dbl dbl_json double_of what json_fmt w hs u v M C). reflexivity.
  - rewrite (stammers_lemma w hs u S1). reflexivity.
Qed.
Lemma say_all_same us calls : Forall2 same_call us calls -> forall w hs,
  say_all w hs us = match log_all w hs calls with Some (w1, hs1, evs) => Some (w1, hs1, evs, map got calls) | None => None end.
Proof.
  induction 1 as [|u c us calls H F IH]; intros w hs; [reflexivity|]. cbn [SayModel.say_all SystemModel.log_all map]. rewrite (say_same u c w hs H).
  destruct (log w hs c) as [[[w1 h1] e1]|]; [|reflexivity]. rewrite IH. destruct (log_all w1 h1 calls) as [[[w2 h2] e2]|]; reflexivity.
Qed.
Lemma calls_exist us : (forall u, In u us -> (exists t, says dbl u t) \/ stammers u) -> exists calls, Forall2 same_call us calls.
Proof.
  induction us as [|u us IH]; intros H; [exists []; constructor|]. destruct IH as (calls & F); [intros x I; apply H; right; exact I|].
  destruct (H u (or_introl eq_refl)) as [(t & S1)|S1].
  - eexists (_ :: calls). constructor; [left; exists t; split; [exact S1|reflexivity]|exact F].
  - eexists (_ :: calls). constructor; [right; split; [exact S1|reflexivity]|exact F].
Qed.

(** ---- calls that throw leave no trace ---- *)

Definition made_ (c : call) : bool := match c_supplier c with Ret _ => true | Throw _ => false end.
Lemma log_all_made calls : forall w hs, log_all w hs calls = log_all w hs (filter made_ calls).
Proof.
  induction calls as [|c calls IH]; intros w hs; [reflexivity|]. cbn [SystemModel.log_all filter]. destruct (made_ c) eqn:E.
  - cbn [SystemModel.log_all]. destruct (log w hs c) as [[[w1 h1] e1]|]; [|reflexivity]. rewrite IH. reflexivity.
  - unfold made_ in E. unfold SystemModel.log at 1. destruct (c_supplier c); [discriminate|]. rewrite IH. destruct (log_all w hs _) as [[[w2 h2] e2]|]; reflexivity.
Qed.
Lemma spread {C L} (f : C -> bool) (P : C -> L -> Prop) calls : forall lines, Forall2 P (filter f calls) lines ->
  exists liness, concat liness = lines /\ Forall2 (fun c ls => if f c then exists l, ls = [l] /\ P c l else ls = []) calls liness.
Proof.
  induction calls as [|c calls IH]; intros lines F; cbn [filter] in F.
  - inversion F. exists []. split; [reflexivity|constructor].
  - destruct (f c) eqn:E.
    + inversion F as [|? l ? ls H1 H2]; subst. destruct (IH _ H2) as (liness & <- & G). exists ([l] :: liness). split; [reflexivity|]. constructor; [|exact G]. rewrite E. eauto.
    + destruct (IH _ F) as (liness & <- & G). exists ([] :: liness). split; [reflexivity|]. constructor; [|exact G]. rewrite E. reflexivity.
Qed.
Lemma forall2_in_left {A C} (R : A -> C -> Prop) l l' : Forall2 R l l' -> forall c, In c l' -> exists a, In a l /\ R a c.
Proof. induction 1 as [|a c l l' H F IH]; intros x I; [destruct I|]. destruct I as [<-|I]; [exists a; split; [left; reflexivity|exact H]|]. destruct (IH x I) as (y & Y & RY). exists y. split; [right; exact Y|exact RY]. Qed.
Lemma forall2_compose {A C D} (R : A -> C -> Prop) (Q : C -> D -> Prop) (P : A -> D -> Prop) : (forall a c d, R a c -> Q c d -> P a d) -> forall l l' l'', Forall2 R l l' -> Forall2 Q l' l'' -> Forall2 P l l''.
Proof. intros H l l' l'' F. revert l''. induction F as [|a c l l' R1 F IH]; intros l'' G; inversion G; subst; constructor; [eapply H; eassumption|apply IH; assumption]. Qed.

Lemma record_of_said u t r : record_of (call_said u (Ret (SView t))) r -> record_saying u t r.
Proof.
  intros (m & E & ->). cbn [call_said c_supplier] in E. injection E as <-. unfold record_saying. cbn [r_formatted r_severity r_timestamp r_tid r_attributes call_said c_severity c_now c_tid c_pack c_scoped c_pattern RootSpec.text_of].
  unfold pack_of. rewrite app_assoc. repeat split.
Qed.
Lemma record_of_exists u t : exists r, record_of (call_said u (Ret (SView t))) r.
Proof. eexists. exists (SView t). split; reflexivity. Qed.

Lemma said_file_lemma ld nd items tokens sevmap hs ws w us w' ws' evs xs i p c rest :
  StrSpec.pattern_ok items -> ParserModel.tokenize ld nd (StrSpec.pattern_text items) = Some (ParserModel.Tokens tokens) ->
  nth_error hs i = Some (HBlocking (FString tokens sevmap) (SFile p c :: rest)) -> only_file hs p i 0 ->
  start_handlers hs = Some ws -> say_all w ws us = Some (w', ws', evs, xs) ->
  FileSinkSpec.fs_ok (w_files w p) ->
  (forall u, In u us -> exists dev ino spill, q_file (s_circumstances u i 0%nat) = FileSinkSpec.calm dev ino spill) ->
  (forall u, In u us -> (exists t, says dbl u t) \/ stammers u) ->
  (forall u t r, In u us -> says dbl u t -> record_saying u t r -> Forall (StrSpec.item_suits ld (severity_names dbl sevmap) (srecord_of (s_env u) r)) items) ->
  Forall2 (fun u x => ((exists t, says dbl u t) /\ x = Ret tt) \/ (stammers u /\ x = Throw (StdExn (what FmtModel.EIndexRange)))) us xs /\
  exists liness, Forall2 (fun u ls => (exists t r outs, says dbl u t /\ record_saying u t r /\
      Forall2 (StrSpec.item_shows dbl double_of ld (severity_names dbl sevmap) (srecord_of (s_env u) r)) items outs /\ ls = [concat outs])
      \/ (stammers u /\ ls = [])) us liness /\
    content (w_files (close_all w' ws') p) = content (w_files w p) ++ concat (map (fun l => l ++ [chr 10]) (concat liness)).
Proof.
  intros PO TK NE OF ST SA FO CF AS SU. destruct (calls_exist us AS) as (calls & SC).
  rewrite (say_all_same us calls SC) in SA. destruct (log_all w ws calls) as [[[w1 h1] e1]|] eqn:LA; [|discriminate]. injection SA as <- <- <- <-.
  split.
  { clear - SC. induction SC as [|u c us calls H F IH]; cbn [map]; constructor; [|exact IH]. destruct H as [(t & S1 & ->)|[S1 ->]]; [left|right]; eauto. }
  rewrite log_all_made in LA.
  destruct (SystemProofs.pattern_file_lemma dbl dbl_json double_of what json_fmt ld nd items tokens sevmap hs ws w (filter made_ calls) w1 h1 e1 i p c rest PO TK NE OF ST LA FO) as (lines & F & E).
  - intros cl I. apply filter_In in I. destruct I as [I _]. destruct (forall2_in_left _ _ _ SC cl I) as (u & IU & [(t & S1 & ->)|[S1 ->]]); exact (CF u IU).
  - intros cl I. apply filter_In in I. destruct I as [I MD]. destruct (forall2_in_left _ _ _ SC cl I) as (u & IU & [(t & S1 & ->)|[S1 ->]]); [|discriminate].
    destruct (record_of_exists u t) as (r & R). exists r. split; [exact R|]. exact (SU u t r IU S1 (record_of_said u t r R)).
  - destruct (spread made_ _ calls lines F) as (liness & <- & G). exists liness. split; [|exact E].
    eapply forall2_compose; [|exact SC|exact G]. intros u cl ls [(t & S1 & ->)|[S1 ->]] H; cbn in H.
    + destruct H as (l & -> & r & outs & R & O & ->). left. exists t, r, outs. split; [exact S1|]. split; [exact (record_of_said u t r R)|]. split; [exact O|reflexivity].
    + right. auto.
Qed.
End End_.
