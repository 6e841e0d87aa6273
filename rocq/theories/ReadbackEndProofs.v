From Verif Require Import Base Values RootModel ConfigModel ConfigSpec FactoriesModel FactoriesSpec FactoriesProofs SystemModel SystemSpec SystemProofs.
From Verif Require Import ThreadsModel ThreadsSpec ThreadsProofs QueuedModel QueuedSpec QueuedProofs QueuedSubProofs QueuedMoreProofs QueuedEndProofs QueuedWorldProofs QueuedLivenessProofs.
From Verif Require Import ReadbackSpec ReadbackProofs ReadbackMoreProofs.
From Verif Require FmtModel TskvModel TskvSpec TskvProofs JsonFmtModel JsonFmtSpec JsonFmtProofs JsonTextModel JsonTextSpec StrModel StrSpec ParserModel ParserSubProofs FileSinkModel FileSinkSpec FlusherModel TcpModel AsyncModel.

Lemma document_to_file : forall dbl dbl_json double_of what json_fmt ld nd v name hs, clean v -> no_nul name -> logger_config ld nd v name hs ->
  logger dbl ld nd v name = Ret hs /\ exists ws, start_handlers (map strip hs) = Some ws /\
  forall w programs sched s tr items tokens sevmap i p c x rest,
  run dbl dbl_json double_of what json_fmt (initial w hs ws programs) sched = Some (s, tr) -> destroyed s ->
  StrSpec.pattern_ok items -> ParserModel.tokenize ld nd (StrSpec.pattern_text items) = Some (ParserModel.Tokens tokens) ->
  nth_error hs i = Some (HBlocking (FString tokens sevmap) (x :: rest)) -> core x = SFile p c -> only_file (map strip hs) p i 0 ->
  patient hs i 0 -> in_time i 0 tr -> FileSinkSpec.fs_ok (w_files w p) ->
  (forall calls cl, In calls programs -> In cl calls -> exists dev ino spill, q_file (c_circumstances cl i 0%nat) = FileSinkSpec.calm dev ino spill) ->
  (forall calls cl now, In calls programs -> In cl calls -> exists r, record_of (stamp cl now) r /\
     Forall (StrSpec.item_suits ld (severity_names dbl sevmap) (srecord_of (c_env cl) r)) items) ->
  exists lines, content (w_files (close_all (g_world s) (g_sinks s)) p) = content (w_files w p) ++ concat (map (fun x => snd x ++ [chr 10]) lines) /\
    Forall (fun x => fst x < length programs)%nat lines /\
    forall t calls, nth_error programs t = Some calls ->
      exists cs, made_at calls (times t (own tr)) cs /\ Forall2 (pattern_entry dbl double_of ld items sevmap) cs (texts_of t lines).
Proof.
  intros dbl dbl_json double_of what json_fmt ld nd v name hs CV NN LC. split; [exact (logger_lemma _ _ _ _ _ _ CV NN LC)|].
  destruct (queued_starts hs) as [ws ST]. exists ws. split; [exact ST|].
  intros w programs sched s tr items tokens sevmap i p c x rest RU D PO TK NE CO OF PA IT FO QC SU.
  assert (HM : forall calls cl now, In calls programs -> In cl calls -> exists text,
    makes dbl dbl_json double_of what json_fmt (FString tokens sevmap) (stamp cl now) text /\ pattern_entry dbl double_of ld items sevmap (stamp cl now) text).
  { intros calls cl now H1 H2. exact (pattern_makes dbl dbl_json double_of what json_fmt ld nd items tokens sevmap (stamp cl now) PO TK (SU calls cl now H1 H2)). }
  destruct (queued_file dbl dbl_json double_of what json_fmt hs ws w programs sched s tr ST RU p c i 0 x (FString tokens sevmap) D PA IT) as (lines & EC & LT & HL); try assumption.
  - exists (FString tokens sevmap), (x :: rest). split; [exact NE|reflexivity].
  - exists (x :: rest). exact NE.
  - intros calls cl now H1 H2. destruct (HM calls cl now H1 H2) as (text & H & _). exists text. exact H.
  - intros j' sev t q b Hj. exfalso. exact (Nat.nlt_0_r _ Hj).
  - exists lines. split; [exact EC|]. split; [exact LT|]. intros t calls HP. destruct (HL t calls HP) as (cs & MA & F2). exists cs. split; [exact MA|].
    assert (HI : forall cl, In cl cs -> exists c0 now, In c0 calls /\ cl = stamp c0 now) by (intros cl HI; destruct (made_at_in _ _ _ MA cl HI) as (c0 & now & H1 & H2); exists c0, now; auto).
    pose proof (nth_error_In _ _ HP) as HC. clear MA. induction F2 as [|cl l cs ls H F2 IH]; constructor.
    + destruct (HI cl (or_introl eq_refl)) as (c0 & now & H1 & ->). destruct (HM calls c0 now HC H1) as (text & (r' & R' & E') & PE). destruct H as (r & R & E).
      rewrite (record_of_unique _ _ _ R R'), E' in E. injection E as <-. exact PE.
    + apply IH. intros y Hy. apply HI. right; exact Hy.
Qed.

Lemma document_ends : forall dbl dbl_json double_of what json_fmt ld nd v name hs, logger_config ld nd v name hs ->
  (forall i j c, In c (layers_at hs i j) -> (4 <= AsyncModel.c_capacity c <= N.to_nat (2 ^ 20))%nat) /\
  forall ws w programs sched s tr, start_handlers (map strip hs) = Some ws ->
  (forall calls c now r f i, In calls programs -> In c calls -> record_of (stamp c now) r -> formatter_at hs i f ->
     match render dbl dbl_json double_of what json_fmt f (c_env c) r with
     | Text t => (Z.of_nat (length t) < 2 ^ 31)%Z | Raises _ => True | SystemModel.Undefined => False end) ->
  run dbl dbl_json double_of what json_fmt (initial w hs ws programs) sched = Some (s, tr) ->
  exists more s' tr', run dbl dbl_json double_of what json_fmt s more = Some (s', tr') /\ (destroyed s' \/ g_dead s' = true).
Proof.
  intros dbl dbl_json double_of what json_fmt ld nd v name hs LC. split; [intros i j c; exact (config_capacity ld nd v name hs i j c LC)|].
  apply queued_ends. intros i j c HI. pose proof (config_capacity ld nd v name hs i j c LC HI) as [H _]. lia.
Qed.
