(** Lemmas about the file sink. *)
From Verif Require Import Base FlusherModel FlusherSpec FlusherProofs FileSinkModel FileSinkSpec.
Open Scope nat_scope.

Lemma upd_same {A} (f : nat -> A) k v : upd f k v k = v.
Proof. unfold upd. rewrite Nat.eqb_refl. reflexivity. Qed.
Lemma upd_other {A} (f : nat -> A) k v x : x <> k -> upd f k v x = f x.
Proof. unfold upd. intros H. destruct (Nat.eqb_spec x k); congruence. Qed.

Lemma append_data s f b g : f_data (append s f b) g = if Nat.eqb g f then f_data s g ++ b else f_data s g.
Proof. unfold append, upd; cbn. destruct (Nat.eqb_spec g f); subst; reflexivity. Qed.

(** ** Any circumstances without write failures *)

Definition grows (s s' : fs) : Prop :=
  f_new s <= f_new s' /\ (fs_ok s -> fs_ok s') /\ (forall f, f < f_new s -> f_data s' f = f_data s f).

Lemma grows_refl s : grows s s.
Proof. unfold grows; auto. Qed.
Lemma grows_trans a b c : grows a b -> grows b c -> grows a c.
Proof.
  intros (H1 & H2 & H3) (H4 & H5 & H6). unfold grows. repeat split; [lia|auto|].
  intros f Hf. rewrite H6 by lia. auto.
Qed.
Lemma grows_create s d i b : grows s (create_file s d i b).
Proof.
  unfold grows, create_file; cbn. repeat split; [lia| |].
  - intros _ f E. cbn in *. injection E as <-. lia.
  - intros f Hf. apply upd_other; lia.
Qed.
Lemma grows_external s x : grows s (apply_external s x).
Proof.
  destruct x as [|f|d i b]; cbn [apply_external].
  - unfold grows, fs_ok; cbn. refine (conj _ (conj _ _)); [lia| |auto]. intros _ f E; discriminate.
  - destruct (Nat.ltb_spec f (f_new s)); [|apply grows_refl].
    unfold grows, fs_ok; cbn. refine (conj _ (conj _ _)); [lia| |auto]. intros _ g E; injection E as <-; assumption.
  - apply grows_create.
Qed.
Lemma grows_externals xs : forall s, grows s (externals s xs).
Proof.
  induction xs as [|x xs IH]; intros s; [apply grows_refl|]. cbn.
  eapply grows_trans; [apply grows_external|apply IH].
Qed.

Definition backend_ok (s : fs) (k : option backend) : Prop :=
  match k with Some k0 => k_bad k0 = false /\ k_file k0 < f_new s | None => True end.

Lemma create_backend_shape c s o s' k : fs_ok s -> create_backend c s o = (s', k) ->
  grows s s' /\ match k with Some k0 => k_bad k0 = false /\ k_file k0 < f_new s' /\ k_pending k0 = [] | None => True end.
Proof.
  intros Hok E. unfold create_backend in E.
  destruct (o_open o) as [[d i]|]; [|inversion E; subst; split; [apply grows_refl|exact I]].
  set (s1 := match f_path s with Some _ => s | None => create_file s d i [] end) in *.
  assert (G1 : grows s s1) by (subst s1; destruct (f_path s); [apply grows_refl|apply grows_create]).
  assert (Hok1 : fs_ok s1) by (apply G1; exact Hok).
  destruct (f_path s1) as [f|] eqn:Ef; [|inversion E; subst; split; [exact G1|exact I]].
  assert (G2 := grows_externals (o_before_stat2 o) s1).
  assert (Hf := Hok1 f Ef). destruct G2 as (N2 & O2 & D2).
  assert (G : grows s (externals s1 (o_before_stat2 o))) by (eapply grows_trans; [exact G1|repeat split; assumption]).
  destruct (c_stat c).
  - destruct (f_path (externals s1 (o_before_stat2 o))); inversion E; subst; (split; [exact G|]); cbn;
      [repeat split; lia|exact I].
  - inversion E; subst. split; [exact G|]; cbn. repeat split; lia.
Qed.

Lemma close_handed s k f : f_data (close_backend s k None) f = handed s (Some k) f.
Proof.
  unfold close_backend, handed. rewrite append_data, Nat.eqb_sym.
  destruct (Nat.eqb (k_file k) f); [reflexivity|rewrite app_nil_r; reflexivity].
Qed.

Lemma find_backend_shape c s k o s' k' : fs_ok s -> backend_ok s k -> o_close o = None ->
  find_backend c s k o = (s', k') ->
  f_new s <= f_new s' /\ fs_ok s' /\ backend_ok s' k' /\
  (forall f, f < f_new s -> handed s' k' f = handed s k f).
Proof.
  intros Hok Hk Hc E. unfold find_backend in E. destruct k as [k0|].
  - set (s1 := externals s (o_before_stat o)) in *.
    assert (G1 : grows s s1) by apply grows_externals.
    assert (G1' := G1). destruct G1' as (N1 & O1 & D1). destruct Hk as [Hb Hf].
    destruct (should_rotate s1 k0).
    + rewrite Hc in E. set (s2 := close_backend s1 k0 None) in *.
      assert (G3 := grows_externals (o_before_open o) s2).
      assert (Hok2 : fs_ok s2) by (intros f Ef; apply (O1 Hok f Ef)).
      assert (Hok3 : fs_ok (externals s2 (o_before_open o))) by (apply G3; exact Hok2).
      destruct (create_backend_shape c _ o s' k' Hok3 E) as [G4 HK].
      assert (G := grows_trans _ _ _ G3 G4). destruct G as (NG & OG & DG).
      assert (N2 : f_new s2 = f_new s1) by reflexivity.
      refine (conj _ (conj (OG Hok2) (conj _ _))); [lia| |].
      * destruct k' as [k1|]; [|exact I]. cbn. tauto.
      * intros f Hlt. transitivity (f_data s' f).
        -- unfold handed. destruct k' as [k1|]; [|apply app_nil_r]. destruct HK as (_ & _ & ->).
           destruct (Nat.eqb (k_file k1) f); apply app_nil_r.
        -- rewrite DG by lia. unfold s2. rewrite close_handed. unfold handed. rewrite D1 by lia. reflexivity.
    + inversion E; subst s' k'. refine (conj N1 (conj (O1 Hok) (conj _ _))).
      * cbn. split; [exact Hb|lia].
      * intros f Hlt. unfold handed. rewrite D1 by lia. reflexivity.
  - assert (G3 := grows_externals (o_before_open o) s).
    assert (Hok3 : fs_ok (externals s (o_before_open o))) by (apply G3; exact Hok).
    destruct (create_backend_shape c _ o s' k' Hok3 E) as [G4 HK].
    assert (G := grows_trans _ _ _ G3 G4). destruct G as (NG & OG & DG).
    refine (conj NG (conj (OG Hok) (conj _ _))).
    + destruct k' as [k1|]; [|exact I]. cbn. tauto.
    + intros f Hlt. unfold handed. rewrite DG by lia. f_equal.
      destruct k' as [k1|]; [|reflexivity]. destruct HK as (_ & _ & ->).
      destruct (Nat.eqb (k_file k1) f); reflexivity.
Qed.

Lemma push_ok s k n s' k' t : push s k (IoOk n) = (s', k', t) ->
  t = false /\ f_new s' = f_new s /\ f_path s' = f_path s /\ f_ino s' = f_ino s /\ f_dev s' = f_dev s /\
  k_file k' = k_file k /\ k_bad k' = k_bad k /\ k_inode k' = k_inode k /\ k_flusher k' = k_flusher k /\
  k_pending k' = skipn n (k_pending k) /\
  forall f, handed s' (Some k') f = handed s (Some k) f.
Proof.
  intros E. unfold push in E. inversion E; subst. do 10 (split; [reflexivity|]).
  intros f. unfold handed. cbn [k_file k_pending]. rewrite append_data, (Nat.eqb_sym f).
  destruct (Nat.eqb (k_file k) f); [|reflexivity].
  rewrite <- app_assoc, firstn_skipn. reflexivity.
Qed.

(** A write in a healthy stream. *)
Lemma backend_write_ok s k m o n j s' k' t :
  k_bad k = false -> o_write o = IoOk n -> o_flush o = IoOk j ->
  backend_write s k m o = (s', k', t) ->
  t = false /\ f_new s' = f_new s /\ f_path s' = f_path s /\ f_ino s' = f_ino s /\ f_dev s' = f_dev s /\
  k_file k' = k_file k /\ k_bad k' = false /\ k_inode k' = k_inode k /\
  (forall f, handed s' (Some k') f = handed s (Some k) f ++ (if Nat.eqb (k_file k) f then line m else [])) /\
  exists r, flusher_update (k_flusher k) (N.of_nat (length m) + 1) = (r, k_flusher k') /\
    (r = Flush -> k_pending k' = []) /\
    (length (k_pending k') <= length (k_pending k) + length (line m)).
Proof.
  intros Hb Hw Hf E. unfold backend_write in E. rewrite Hb, Hw, Hf in E.
  set (k1 := Backend (k_file k) (k_pending k ++ m ++ [NL]) false (k_inode k) (k_flusher k)) in *.
  destruct (push s k1 (IoOk n)) as [[s2 k2] t2] eqn:E2.
  apply push_ok in E2 as (-> & N2 & P2 & I2 & V2 & F2 & B2 & J2 & L2 & Q2 & H2).
  rewrite L2 in E. cbn [k_flusher k1] in E.
  destruct (flusher_update (k_flusher k) (N.of_nat (length m) + 1)) as [r fl] eqn:EU.
  assert (H1 : forall f, handed s (Some k1) f = handed s (Some k) f ++ (if Nat.eqb (k_file k) f then line m else [])).
  { intros f. unfold handed. cbn [k1 k_file k_pending]. destruct (Nat.eqb (k_file k) f).
    - rewrite <- app_assoc. reflexivity.
    - rewrite !app_nil_r. reflexivity. }
  set (k3 := Backend (k_file k2) (k_pending k2) false (k_inode k2) fl) in *.
  assert (H3 : forall f, handed s2 (Some k3) f = handed s2 (Some k2) f) by reflexivity.
  assert (LP : length (k_pending k2) <= length (k_pending k) + length (line m)).
  { rewrite Q2, skipn_length. cbn [k1 k_pending]. unfold line. rewrite app_length. change (chr 10) with NL. lia. }
  destruct r.
  - inversion E; subst s' k' t.
    do 4 (split; [try reflexivity; congruence|]). split; [congruence|].
    split; [cbn [k3 k_file]; rewrite F2; reflexivity|]. split; [reflexivity|].
    split; [cbn [k3 k_inode]; rewrite J2; reflexivity|].
    split; [intros f; rewrite H3, H2, H1; reflexivity|].
    exists Idle. split; [reflexivity|]. split; [discriminate|exact LP].
  - apply push_ok in E as (-> & N4 & P4 & I4 & V4 & F4 & B4 & J4 & L4 & Q4 & H4).
    do 4 (split; [try reflexivity; congruence|]). split; [congruence|].
    split; [rewrite F4; cbn [k3 k_file]; rewrite F2; reflexivity|]. split; [rewrite B4; reflexivity|].
    split; [rewrite J4; cbn [k3 k_inode]; rewrite J2; reflexivity|].
    split; [intros f; rewrite H4, H3, H2, H1; reflexivity|].
    assert (QE : k_pending k' = []) by (rewrite Q4; apply skipn_all).
    exists Flush. rewrite L4. split; [reflexivity|]. split; [intros _; exact QE|]. rewrite QE. cbn. lia.
Qed.

Lemma emit_shape c s k m o s' k' threw :
  fs_ok s -> backend_ok s k -> no_write_failure o -> emit c s k m o = (s', k', threw) ->
  f_new s <= f_new s' /\ fs_ok s' /\ backend_ok s' k' /\
  (threw = true -> forall f, f < f_new s -> handed s' k' f = handed s k f) /\
  (threw = false -> exists k1, k' = Some k1 /\
     forall f, f < f_new s' -> exists before, (f < f_new s -> before = handed s k f) /\
       handed s' k' f = before ++ (if Nat.eqb (k_file k1) f then line m else [])).
Proof.
  intros Hok Hk (Hc & (n & Hw) & (j & Hf)) E. unfold emit in E.
  destruct (find_backend c s k o) as [s1 [k1|]] eqn:EF.
  - destruct (find_backend_shape c s k o s1 (Some k1) Hok Hk Hc EF) as (N1 & O1 & K1 & H1).
    destruct (backend_write s1 k1 m o) as [[s2 k2] t] eqn:EW. inversion E; subst s2 k' t; clear E.
    destruct K1 as [KB KF].
    destruct (backend_write_ok s1 k1 m o n j s' k2 threw KB Hw Hf EW) as (-> & N2 & P2 & I2 & V2 & F2 & B2 & J2 & H2 & _).
    refine (conj _ (conj _ (conj _ (conj _ _)))); [lia| | |discriminate|].
    + intros f Ef. rewrite N2. apply O1. congruence.
    + cbn. split; [exact B2|]. rewrite F2, N2. exact KF.
    + intros _. exists k2. split; [reflexivity|]. intros f Hlt. exists (handed s1 (Some k1) f). split.
      * intros Hs. apply H1; exact Hs.
      * rewrite H2, F2. reflexivity.
  - destruct (find_backend_shape c s k o s1 None Hok Hk Hc EF) as (N1 & O1 & K1 & H1).
    inversion E; subst. refine (conj N1 (conj O1 (conj I (conj _ _)))); [|discriminate].
    intros _. exact H1.
Qed.

Lemma run_cons c s k a acts s' k' ts : run c s k (a :: acts) = (s', k', ts) ->
  exists s1 k1 t1 t2, step c s k a = (s1, k1, t1) /\ run c s1 k1 acts = (s', k', t2) /\ ts = t1 ++ t2.
Proof.
  cbn [run]. destruct (step c s k a) as [[s1 k1] t1]. destruct (run c s1 k1 acts) as [[s2 k2] t2] eqn:E.
  intros H; inversion H; subst. exists s1, k1, t1, t2. auto.
Qed.

Lemma whole_lines_go c acts : forall s k s' k' ts,
  fs_ok s -> backend_ok s k -> Forall gentle acts -> run c s k acts = (s', k', ts) ->
  f_new s <= f_new s' /\
  exists files, length files = length (returned acts ts) /\ Forall (fun f => f < f_new s') files /\
    forall f, f < f_new s' -> exists before, (f < f_new s -> before = handed s k f) /\
      handed s' k' f = before ++ concat (map line (assigned f files (returned acts ts))).
Proof.
  induction acts as [|a acts IH]; intros s k s' k' ts Hok Hk Hg E.
  - inversion E; subst. split; [lia|]. exists []. split; [reflexivity|]. split; [constructor|].
    intros f Hf. exists (handed s' k' f). split; [auto|]. cbn. rewrite app_nil_r. reflexivity.
  - apply run_cons in E as (s1 & k1 & t1 & t2 & ES & ER & ->). inversion Hg as [|? ? Ha Hg']; subst.
    destruct a as [x|m o]; cbn [step] in ES.
    + inversion ES; subst s1 k1 t1.
      destruct (grows_external s x) as (NG & OG & DG).
      assert (Hk1 : backend_ok (apply_external s x) k).
      { destruct k as [k0|]; [|exact I]. cbn in Hk |- *. split; [apply Hk|]. destruct Hk; lia. }
      destruct (IH _ _ _ _ _ (OG Hok) Hk1 Hg' ER) as (N2 & files & L & FA & H).
      split; [lia|]. exists files. cbn [app returned]. split; [exact L|]. split; [exact FA|].
      intros f Hf. destruct (H f Hf) as (b & Hb & Eb). exists b. split; [|exact Eb].
      intros Hlt. rewrite Hb by lia. unfold handed. rewrite DG by lia. reflexivity.
    + destruct (emit c s k m o) as [[s1' k1'] t] eqn:EE. inversion ES; subst s1' k1' t1; clear ES.
      destruct (emit_shape c s k m o s1 k1 t Hok Hk Ha EE) as (N1 & O1 & K1 & HT & HF).
      destruct (IH _ _ _ _ _ O1 K1 Hg' ER) as (N2 & files & L & FA & H).
      split; [lia|]. destruct t.
      * exists files. cbn [app returned]. split; [exact L|]. split; [exact FA|].
        intros f Hf. destruct (H f Hf) as (b & Hb & Eb). exists b. split; [|exact Eb].
        intros Hlt. rewrite Hb by lia. apply HT; [reflexivity|lia].
      * destruct (HF eq_refl) as (k2 & -> & HB). cbn [backend_ok] in K1.
        exists (k_file k2 :: files). cbn [app returned length]. split; [f_equal; exact L|].
        split; [constructor; [lia|exact FA]|].
        intros f Hf. destruct (H f Hf) as (b & Hb & Eb). cbn [assigned].
        destruct (Nat.lt_ge_cases f (f_new s1)) as [H1|H1].
        -- destruct (HB f H1) as (b0 & Hb0 & Eb0). exists b0. split; [exact Hb0|].
           rewrite Eb, (Hb H1), Eb0. rewrite map_app, concat_app, <- app_assoc.
           destruct (Nat.eqb (k_file k2) f); cbn [map concat]; [rewrite app_nil_r|]; reflexivity.
        -- exists b. split; [lia|]. rewrite Eb. destruct (Nat.eqb_spec (k_file k2) f); [lia|reflexivity].
Qed.

Lemma whole_lines_lemma : forall c s0 acts s k ts,
  fs_ok s0 -> Forall gentle acts -> run c s0 None acts = (s, k, ts) ->
  exists files, length files = length (returned acts ts) /\
    forall f, f < f_new s -> exists before, (f < f_new s0 -> before = f_data s0 f) /\
      handed s k f = before ++ concat (map line (assigned f files (returned acts ts))).
Proof.
  intros c s0 acts s k ts Hok Hg E.
  destruct (whole_lines_go c acts s0 None s k ts Hok I Hg E) as (_ & files & L & _ & H).
  exists files. split; [exact L|]. intros f Hf. destruct (H f Hf) as (b & Hb & Eb). exists b. split; [|exact Eb].
  intros Hlt. rewrite (Hb Hlt). unfold handed. apply app_nil_r.
Qed.

(** ** Calm histories *)

Section Calm.
Variable c : config.
Variable P : bytes -> Prop.                    (* admissible messages *)
Variable T : list bytes -> flusher_t -> Prop.  (* the flusher knows the records since the last flush *)
Hypothesis T_new : T [] (c_flusher c).
Hypothesis T_idle : forall l fl m fl', P m -> T l fl ->
  flusher_update fl (N.of_nat (length m) + 1) = (Idle, fl') -> T (l ++ [m]) fl'.
Hypothesis T_flush : forall l fl m fl', P m -> T l fl ->
  flusher_update fl (N.of_nat (length m) + 1) = (Flush, fl') -> T [] fl'.

Definition open_ok (x : ideal) (s : fs) (k : backend) : Prop :=
  k_bad k = false /\ k_file k < f_new s /\
  k_inode k = (if c_stat c then Some (f_ino s (k_file k)) else None) /\
  exists safe since, f_data (i_fs x) (k_file k) = safe ++ concat (map line since) /\
    length (k_pending k) <= length (concat (map line since)) /\ T since (k_flusher k).

Definition R (x : ideal) (s : fs) (k : option backend) : Prop :=
  f_path s = f_path (i_fs x) /\ f_dev s = f_dev (i_fs x) /\ f_ino s = f_ino (i_fs x) /\ f_new s = f_new (i_fs x) /\
  fs_ok s /\ (forall f, handed s k f = f_data (i_fs x) f) /\
  i_open x = option_map k_file k /\
  match k with Some k0 => open_ok x s k0 | None => True end.

Lemma R_external x s k e : R x s k -> R (Ideal (apply_external (i_fs x) e) (i_open x)) (apply_external s e) k.
Proof.
  intros (HP & HD & HI & HN & Hok & HH & HO & HK). unfold R. cbn [i_fs i_open].
  destruct (grows_external s e) as (_ & OG & _).
  destruct e as [|g|d i b]; cbn [apply_external].
  - cbn. refine (conj eq_refl (conj HD (conj HI (conj HN (conj _ (conj _ (conj HO _))))))).
    + intros f E; discriminate.
    + exact HH.
    + exact HK.
  - rewrite <- HN. destruct (Nat.ltb_spec g (f_new s)).
    + cbn. refine (conj eq_refl (conj HD (conj HI (conj eq_refl (conj _ (conj _ (conj HO _))))))).
      * intros f E; cbn in *. injection E as <-; assumption.
      * exact HH.
      * exact HK.
    + refine (conj HP (conj HD (conj HI (conj HN (conj Hok (conj HH (conj HO _))))))).
      exact HK.
  - unfold create_file; cbn. rewrite HD, HI, HN.
    refine (conj eq_refl (conj eq_refl (conj eq_refl (conj eq_refl (conj _ (conj _ (conj HO _))))))).
    + intros f E; cbn in *. injection E as <-; lia.
    + intros f. destruct (Nat.eq_dec f (f_new (i_fs x))) as [->|Hne].
      * unfold handed; cbn [f_data]. rewrite !upd_same. destruct k as [k0|]; [|apply app_nil_r].
        destruct HK as (_ & Hlt & _). destruct (Nat.eqb_spec (k_file k0) (f_new (i_fs x))); [lia|apply app_nil_r].
      * unfold handed; cbn [f_data]. rewrite !upd_other by exact Hne. apply HH.
    + destruct k as [k0|]; [|exact I]. destruct HK as (K1 & K2 & K3 & sa & si & K4 & K5 & K6).
      unfold open_ok; cbn [f_new f_ino i_fs f_data].
      refine (conj K1 (conj _ (conj _ _))); [lia| |].
      * rewrite K3. rewrite upd_other by lia. rewrite HI. reflexivity.
      * exists sa, si. rewrite upd_other by lia. auto.
Qed.

Lemma handed_fresh s f i g : handed s (Some (Backend f [] false i (c_flusher c))) g = f_data s g.
Proof. unfold handed; cbn. destruct (Nat.eqb f g); apply app_nil_r. Qed.

(** Opening the file the path names, or a new one. *)
Lemma R_open x s dev ino spill :
  R x s None ->
  exists s' k, create_backend c s (calm dev ino spill) = (s', Some k) /\
    match f_path s with
    | Some f => k_file k = f /\ R (Ideal (i_fs x) (Some f)) s' (Some k)
    | None => k_file k = f_new s /\
        R (Ideal (apply_external (i_fs x) (XCreate dev ino [])) (Some (f_new s))) s' (Some k)
    end.
Proof.
  intros HR. assert (HR0 := HR). destruct HR as (HP & HD & HI & HN & Hok & HH & HO & HK).
  unfold create_backend. cbn [calm o_open o_before_stat2 externals fold_left].
  destruct (f_path s) as [f|] eqn:EP.
  - rewrite EP. exists s. assert (Hlt := Hok f EP).
    destruct (c_stat c) eqn:EC; eexists; (split; [reflexivity|]); (split; [reflexivity|]).
    + refine (conj _ (conj HD (conj HI (conj HN (conj Hok (conj _ (conj eq_refl _))))))); [cbn [i_fs]; congruence| |].
      * intros g. rewrite handed_fresh. rewrite <- HH. unfold handed. rewrite app_nil_r. reflexivity.
      * unfold open_ok. rewrite EC. cbn. repeat split; [lia|]. exists (f_data (i_fs x) f), [].
        cbn. rewrite app_nil_r. auto.
    + refine (conj _ (conj HD (conj HI (conj HN (conj Hok (conj _ (conj eq_refl _))))))); [cbn [i_fs]; congruence| |].
      * intros g. rewrite handed_fresh. rewrite <- HH. unfold handed. rewrite app_nil_r. reflexivity.
      * unfold open_ok. rewrite EC. cbn. repeat split; [lia|]. exists (f_data (i_fs x) f), [].
        cbn. rewrite app_nil_r. auto.
  - assert (HX := R_external x s None (XCreate dev ino []) HR0).
    destruct HX as (HP' & HD' & HI' & HN' & Hok' & HH' & HO' & HK').
    cbn [apply_external i_fs i_open] in *.
    change (f_path (create_file s dev ino [])) with (Some (f_new s)) in *. cbn [create_file f_path].
    exists (create_file s dev ino []).
    assert (OO : forall i, i = (if c_stat c then Some (f_ino (create_file s dev ino []) (f_new s)) else None) ->
       R (Ideal (create_file (i_fs x) dev ino []) (Some (f_new s))) (create_file s dev ino [])
         (Some (Backend (f_new s) [] false i (c_flusher c)))).
    { intros i ->.
      refine (conj HP' (conj HD' (conj HI' (conj HN' (conj Hok' (conj _ (conj eq_refl _))))))).
      - intros g. rewrite handed_fresh. cbn [i_fs]. rewrite <- HH'. unfold handed. rewrite app_nil_r. reflexivity.
      - unfold open_ok. cbn [k_bad k_file k_inode k_pending k_flusher i_fs].
        split; [reflexivity|]. split; [cbn; lia|]. split; [reflexivity|].
        exists (f_data (create_file (i_fs x) dev ino []) (f_new s)), []. cbn [map concat length].
        rewrite app_nil_r. auto. }
    destruct (c_stat c) eqn:EC; eexists; (split; [reflexivity|]); (split; [reflexivity|]).
    + apply OO. reflexivity.
    + apply OO. reflexivity.
Qed.

Lemma app_inj_len {A} (a b a' b' : list A) : a ++ b = a' ++ b' -> length b <= length b' -> exists m, a = a' ++ m.
Proof.
  intros E L. exists (skipn (length a') a).
  assert (LE : length (a ++ b) = length (a' ++ b')) by (rewrite E; reflexivity).
  rewrite !app_length in LE.
  assert (F : firstn (length a') (a ++ b) = a') by (rewrite E, firstn_app, firstn_all, Nat.sub_diag; cbn; apply app_nil_r).
  rewrite firstn_app in F. replace (length a' - length a) with 0 in F by lia. cbn in F. rewrite app_nil_r in F.
  rewrite <- F at 1. symmetry. apply firstn_skipn.
Qed.

(** Writing through an open backend. *)
Lemma R_write x s k m dev ino spill s' k' t : P m ->
  R x s (Some k) -> backend_write s k m (calm dev ino spill) = (s', k', t) ->
  t = false /\ R (Ideal (write_to (i_fs x) (k_file k) m) (Some (k_file k))) s' (Some k').
Proof.
  intros HPm (HP & HD & HI & HN & Hok & HH & HO & (K1 & K2 & K3 & sa & si & K4 & K5 & K6)) E.
  destruct (backend_write_ok s k m (calm dev ino spill) spill 0 s' k' t K1 eq_refl eq_refl E)
    as (-> & N2 & P2 & I2 & V2 & F2 & B2 & J2 & H2 & r & EU & EP & EL).
  split; [reflexivity|].
  refine (conj _ (conj _ (conj _ (conj _ (conj _ (conj _ (conj _ _))))))); cbn [i_fs i_open write_to f_path f_dev f_ino f_new f_data].
  - congruence.
  - congruence.
  - congruence.
  - congruence.
  - intros f Ef. rewrite N2. apply Hok. congruence.
  - intros f. rewrite H2, HH. rewrite (Nat.eqb_sym f). destruct (Nat.eqb_spec (k_file k) f) as [<-|]; [reflexivity|apply app_nil_r].
  - cbn. rewrite F2. reflexivity.
  - unfold open_ok. rewrite F2, N2, I2, J2. cbn [i_fs write_to f_data]. rewrite Nat.eqb_refl.
    refine (conj B2 (conj K2 (conj K3 _))).
    destruct r.
    + exists sa, (si ++ [m]). rewrite K4, map_app, concat_app. cbn [map concat].
      rewrite app_nil_r, <- app_assoc. split; [reflexivity|]. split; [rewrite app_length; lia|].
      eapply T_idle; [exact HPm|exact K6|exact EU].
    + exists (f_data (i_fs x) (k_file k) ++ line m), []. cbn [map concat length]. rewrite app_nil_r.
      split; [reflexivity|]. split; [rewrite (EP eq_refl); cbn; lia|].
      eapply T_flush; [exact HPm|exact K6|exact EU].
Qed.

(** Closing. *)
Lemma R_close x s k : R x s (Some k) -> R (Ideal (i_fs x) None) (close_backend s k None) None.
Proof.
  intros (HP & HD & HI & HN & Hok & HH & HO & _).
  refine (conj HP (conj HD (conj HI (conj HN (conj Hok (conj _ (conj eq_refl I))))))).
  intros f. cbn [i_fs]. rewrite <- HH, <- close_handed. unfold handed. apply app_nil_r.
Qed.

Lemma rotate_iff x s k : R x s (Some k) -> inode_kept x ->
  should_rotate s k = if c_stat c then match f_path s with Some g => negb (Nat.eqb g (k_file k)) | None => true end else false.
Proof.
  intros (HP & HD & HI & HN & Hok & HH & HO & (K1 & K2 & K3 & _)) HKp. unfold should_rotate. rewrite K3.
  destruct (c_stat c); [|reflexivity]. destruct (f_path s) as [g|] eqn:EP; [|reflexivity].
  destruct (Nat.eqb_spec g (k_file k)) as [->|Hne].
  - rewrite N.eqb_refl. reflexivity.
  - destruct (N.eqb_spec (f_ino s g) (f_ino s (k_file k))) as [Hi|Hi]; [|reflexivity].
    exfalso. apply Hne. symmetry. apply (HKp (k_file k) g).
    + rewrite HO; reflexivity.
    + congruence.
    + rewrite <- HI. symmetry; exact Hi.
Qed.

Lemma ideal_open_irrelevant x o : c_stat c = true -> ideal_target (c_stat c) (Ideal (i_fs x) o) = ideal_target (c_stat c) x.
Proof. intros ->. reflexivity. Qed.

(** Opening, then writing, is a step of the ideal sink that has no file open. *)
Lemma R_open_write x s m dev ino spill : P m -> R x s None ->
  exists s' k', (let '(s1, k1) := create_backend c s (calm dev ino spill) in
    match k1 with
    | None => (s1, None, true)
    | Some k1 => let '(s2, k2, threw) := backend_write s1 k1 m (calm dev ino spill) in (s2, Some k2, threw)
    end) = (s', Some k', false) /\
    R (match f_path (i_fs x) with
       | Some f => Ideal (write_to (i_fs x) f m) (Some f)
       | None => Ideal (write_to (apply_external (i_fs x) (XCreate dev ino [])) (f_new (i_fs x)) m) (Some (f_new (i_fs x)))
       end) s' (Some k').
Proof.
  intros HPm HR. destruct (R_open x s dev ino spill HR) as (s1 & k1 & E1 & H1). rewrite E1.
  destruct HR as (HP & HD & HI & HN & _). rewrite <- HP, <- HN.
  destruct (backend_write s1 k1 m (calm dev ino spill)) as [[s2 k2] t] eqn:E2.
  destruct (f_path s) as [f|]; destruct H1 as [F1 HR1].
  - destruct (R_write _ _ _ _ _ _ _ _ _ _ HPm HR1 E2) as [-> HR2]. exists s2, k2. split; [reflexivity|].
    rewrite F1 in HR2. exact HR2.
  - destruct (R_write _ _ _ _ _ _ _ _ _ _ HPm HR1 E2) as [-> HR2]. exists s2, k2. split; [reflexivity|].
    rewrite F1 in HR2. exact HR2.
Qed.

Lemma R_emit x s k m dev ino spill : P m -> R x s k -> inode_kept x ->
  exists s' k', emit c s k m (calm dev ino spill) = (s', Some k', false) /\
    R (ideal_step (c_stat c) x (Emit m (calm dev ino spill))) s' (Some k').
Proof.
  intros HPm HR HKp. unfold emit, find_backend. cbn [calm o_before_open o_before_stat o_close externals fold_left].
  fold (calm dev ino spill). unfold ideal_step. cbn [o_open calm fst snd]. fold (calm dev ino spill).
  destruct k as [k0|].
  - assert (HO : i_open x = Some (k_file k0)) by (destruct HR as (_ & _ & _ & _ & _ & _ & HO & _); exact HO).
    assert (HP : f_path s = f_path (i_fs x)) by apply HR.
    rewrite (rotate_iff x s k0 HR HKp).
    unfold ideal_target. rewrite HO. destruct (c_stat c) eqn:EC.
    + destruct (f_path s) as [g|] eqn:EP.
      * rewrite <- HP. destruct (Nat.eqb_spec g (k_file k0)) as [->|Hne]; cbn [negb].
        -- destruct (backend_write s k0 m (calm dev ino spill)) as [[s2 k2] t] eqn:E2.
           destruct (R_write _ _ _ _ _ _ _ _ _ _ HPm HR E2) as [-> HR2]. exists s2, k2. auto.
        -- destruct (R_open_write _ _ m dev ino spill HPm (R_close x s k0 HR)) as (s' & k' & E' & HR').
           cbn [i_fs] in HR'. rewrite <- HP in HR'. exists s', k'. split; [exact E'|exact HR'].
      * rewrite <- HP.
        destruct (R_open_write _ _ m dev ino spill HPm (R_close x s k0 HR)) as (s' & k' & E' & HR').
        cbn [i_fs] in HR'. rewrite <- HP in HR'. exists s', k'. split; [exact E'|exact HR'].
    + destruct (backend_write s k0 m (calm dev ino spill)) as [[s2 k2] t] eqn:E2.
      destruct (R_write _ _ _ _ _ _ _ _ _ _ HPm HR E2) as [-> HR2]. exists s2, k2. auto.
  - assert (HO : i_open x = None) by (destruct HR as (_ & _ & _ & _ & _ & _ & HO & _); exact HO).
    destruct (R_open_write x s m dev ino spill HPm HR) as (s' & k' & E' & HR').
    exists s', k'. split; [exact E'|]. unfold ideal_target. rewrite HO.
    destruct (c_stat c); destruct (f_path (i_fs x)); exact HR'.
Qed.

Lemma R_run acts : forall x s k s' k' ts,
  Forall calm_action acts -> messages_satisfy P acts -> R x s k ->
  (forall a1 a2, acts = a1 ++ a2 -> inode_kept (fold_left (ideal_step (c_stat c)) a1 x)) ->
  run c s k acts = (s', k', ts) ->
  R (fold_left (ideal_step (c_stat c)) acts x) s' k' /\ Forall (fun b => b = false) ts.
Proof.
  induction acts as [|a acts IH]; intros x s k s' k' ts HC HM HR HKp E.
  - inversion E; subst. split; [exact HR|constructor].
  - apply run_cons in E as (s1 & k1 & t1 & t2 & ES & ER & ->). inversion HC as [|? ? Ha HC']; subst.
    assert (HM' : messages_satisfy P acts) by (intros m o Hin; apply (HM m o); right; exact Hin).
    assert (HKp' : forall y, y = ideal_step (c_stat c) x a -> forall a1 a2, acts = a1 ++ a2 ->
      inode_kept (fold_left (ideal_step (c_stat c)) a1 y)).
    { intros y -> a1 a2 ->. apply (HKp (a :: a1) a2). reflexivity. }
    cbn [fold_left]. destruct a as [e|m o]; cbn [step] in ES.
    + inversion ES; subst s1 k1 t1.
      assert (HR1 := R_external x s k e HR).
      destruct (IH _ _ _ _ _ _ HC' HM' HR1 (HKp' _ eq_refl) ER) as [IH1 IH2]. split; [exact IH1|exact IH2].
    + destruct Ha as (dev & ino & spill & ->).
      assert (HPm : P m) by (apply (HM m (calm dev ino spill)); left; reflexivity).
      destruct (R_emit x s k m dev ino spill HPm HR (HKp [] _ eq_refl)) as (s2 & k2 & EE & HR2).
      rewrite EE in ES. inversion ES; subst s1 k1 t1.
      destruct (IH _ _ _ _ _ _ HC' HM' HR2 (HKp' _ eq_refl) ER) as [IH1 IH2].
      split; [exact IH1|constructor; [reflexivity|exact IH2]].
Qed.

Lemma R_init s : fs_ok s -> R (Ideal s None) s None.
Proof.
  intros H. refine (conj eq_refl (conj eq_refl (conj eq_refl (conj eq_refl (conj H (conj _ (conj eq_refl I))))))).
  intros f. unfold handed; cbn. apply app_nil_r.
Qed.

Lemma R_final s0 acts s k ts :
  fs_ok s0 -> Forall calm_action acts -> messages_satisfy P acts -> inodes_kept (c_stat c) s0 acts ->
  run c s0 None acts = (s, k, ts) ->
  R (ideal_run (c_stat c) s0 acts) s k /\ Forall (fun b => b = false) ts.
Proof. intros Hok HC HM HKp E. eapply R_run; eauto. apply R_init; exact Hok. Qed.

(** What a crash may lose. *)
Lemma R_crash x s k f : R x s k -> exists safe lost fl,
  f_data (i_fs x) f = safe ++ concat (map line lost) /\ is_prefix safe (f_data s f) /\
  is_prefix (f_data s f) (f_data (i_fs x) f) /\ T lost fl.
Proof.
  intros (HP & HD & HI & HN & Hok & HH & HO & HK). specialize (HH f). unfold handed in HH.
  assert (NO : f_data s f ++ [] = f_data (i_fs x) f -> exists safe lost fl,
    f_data (i_fs x) f = safe ++ concat (map line lost) /\ is_prefix safe (f_data s f) /\
    is_prefix (f_data s f) (f_data (i_fs x) f) /\ T lost fl).
  { intros E. rewrite app_nil_r in E. exists (f_data s f), [], (c_flusher c). cbn. rewrite app_nil_r.
    split; [symmetry; exact E|]. split; [exists []; rewrite app_nil_r; reflexivity|].
    split; [exists []; rewrite app_nil_r; symmetry; exact E|exact T_new]. }
  destruct k as [k0|]; [|apply NO; exact HH].
  destruct (Nat.eqb_spec (k_file k0) f) as [<-|]; [|apply NO; exact HH].
  destruct HK as (_ & _ & _ & sa & si & K4 & K5 & K6).
  exists sa, si, (k_flusher k0). split; [exact K4|]. split; [|split; [|exact K6]].
  - rewrite K4 in HH. destruct (app_inj_len _ _ _ _ HH K5) as [m ->]. exists m. reflexivity.
  - exists (k_pending k0). symmetry; exact HH.
Qed.
End Calm.

Definition no_T : list bytes -> flusher_t -> Prop := fun _ _ => True.

Lemma lines_in_order_lemma : forall c s0 acts s k ts f,
  fs_ok s0 -> Forall calm_action acts -> inodes_kept (c_stat c) s0 acts ->
  run c s0 None acts = (s, k, ts) ->
  Forall (fun threw => threw = false) ts /\
  handed s k f = f_data (i_fs (ideal_run (c_stat c) s0 acts)) f /\
  f_data (destroy s k) f = f_data (i_fs (ideal_run (c_stat c) s0 acts)) f.
Proof.
  intros c s0 acts s k ts f Hok HC HKp E.
  destruct (R_final c (fun _ => True) no_T I (fun _ _ _ _ _ _ _ => I) (fun _ _ _ _ _ _ _ => I) s0 acts s k ts Hok HC
    (fun _ _ _ => I) HKp E) as [HR HF].
  split; [exact HF|]. destruct HR as (_ & _ & _ & _ & _ & HH & _ & _). split; [apply HH|].
  rewrite <- HH. destruct k as [k0|]; cbn [destroy]; [apply close_handed|]. unfold handed. symmetry; apply app_nil_r.
Qed.

Definition T_repeat (L : N) (l : list bytes) (fl : flusher_t) : Prop :=
  (N.of_nat (length l) < L)%N /\
  (fl = FRepeat {| r_counter := N.of_nat (length l); r_threshold := L |}).

Lemma crash_records_lemma : forall c s0 acts s k ts f n,
  (n < 2 ^ 64)%N -> c_flusher c = FRepeat (repeat_new n) ->
  fs_ok s0 -> Forall calm_action acts -> inodes_kept (c_stat c) s0 acts ->
  run c s0 None acts = (s, k, ts) ->
  exists safe lost, f_data (i_fs (ideal_run (c_stat c) s0 acts)) f = safe ++ concat (map line lost) /\
    is_prefix safe (f_data s f) /\ is_prefix (f_data s f) (safe ++ concat (map line lost)) /\
    (N.of_nat (length lost) < limit_of n)%N.
Proof.
  intros c s0 acts s k ts f n Hn Hc Hok HC HKp E.
  destruct (limit_pos n Hn) as [L0 L1]. set (L := limit_of n) in *.
  assert (T1 : T_repeat L [] (c_flusher c)).
  { rewrite Hc, repeat_new_eq. split; [cbn; lia|reflexivity]. }
  assert (UP : forall l fl m r fl', T_repeat L l fl -> flusher_update fl (N.of_nat (length m) + 1) = (r, fl') ->
    match r with Idle => T_repeat L (l ++ [m]) fl' | Flush => T_repeat L [] fl' end).
  { intros l fl m r fl' [A ->] EU. cbn [flusher_update] in EU. unfold repeat_update in EU.
    cbn [r_counter r_threshold] in EU.
    destruct (N.eqb_spec (N.of_nat (length m) + 1) 0) as [H0|_]; [lia|].
    rewrite wrap64_small in EU by lia.
    destruct (N.eqb_spec ((N.of_nat (length l) + 1) mod L) 0) as [Hz|Hz]; inversion EU; subst r fl'.
    - split; [cbn; lia|]. rewrite Hz. reflexivity.
    - assert (HL : (N.of_nat (length l) + 1 < L)%N).
      { destruct (N.eq_dec (N.of_nat (length l) + 1) L) as [He|He]; [|lia]. rewrite He, N.mod_same in Hz by lia. congruence. }
      rewrite N.mod_small by exact HL. split; rewrite app_length, Nat.add_1_r; [lia|].
      do 2 f_equal. lia. }
  destruct (R_final c (fun _ => True) (T_repeat L) T1
     (fun l fl m fl' _ A EU => UP l fl m Idle fl' A EU) (fun l fl m fl' _ A EU => UP l fl m Flush fl' A EU)
     s0 acts s k ts Hok HC (fun _ _ _ => I) HKp E) as [HR _].
  destruct (R_crash c (T_repeat L) T1 _ _ _ f HR) as (sa & lo & fl & A & A1 & A2 & A3 & _).
  exists sa, lo. rewrite A in A2. auto.
Qed.

Definition sizes (l : list bytes) : N := N.of_nat (length (concat (map line l))).

Definition T_bytes (L : N) (l : list bytes) (fl : flusher_t) : Prop :=
  exists ctr, fl = FBytes {| b_counter := ctr; b_threshold := L |} /\ (sizes l <= ctr < L)%N.

Lemma crash_bytes_lemma : forall c s0 acts s k ts f n,
  (n < 2 ^ 64)%N -> c_flusher c = FBytes (bytecount_new n) ->
  fs_ok s0 -> Forall calm_action acts -> inodes_kept (c_stat c) s0 acts ->
  messages_satisfy (fun m => N.of_nat (length (line m)) + limit_of n <= 2 ^ 64)%N acts ->
  run c s0 None acts = (s, k, ts) ->
  exists missing, f_data (i_fs (ideal_run (c_stat c) s0 acts)) f = f_data s f ++ missing /\
    (N.of_nat (length missing) < limit_of n)%N.
Proof.
  intros c s0 acts s k ts f n Hn Hc Hok HC HKp HM E.
  destruct (limit_pos n Hn) as [L0 L1]. set (L := limit_of n) in *.
  assert (T1 : T_bytes L [] (c_flusher c)).
  { rewrite Hc, bytecount_new_eq. exists 0%N. split; [reflexivity|]. unfold sizes; cbn. lia. }
  assert (UP : forall l fl m r fl', (N.of_nat (length (line m)) + L <= 2 ^ 64)%N ->
    T_bytes L l fl -> flusher_update fl (N.of_nat (length m) + 1) = (r, fl') ->
    match r with Idle => T_bytes L (l ++ [m]) fl' | Flush => T_bytes L [] fl' end).
  { intros l fl m r fl' HP (ctr & -> & A) EU. cbn [flusher_update] in EU. unfold bytecount_update in EU.
    cbn [b_counter b_threshold] in EU.
    assert (SL : N.of_nat (length (line m)) = (N.of_nat (length m) + 1)%N) by (unfold line; rewrite app_length; cbn; lia).
    rewrite SL in HP. change (2 ^ 64)%N with two64 in HP.
    destruct (N.eqb_spec (N.of_nat (length m) + 1) 0) as [H0|_]; [lia|].
    rewrite wrap64_small in EU by lia.
    destruct (N.leb_spec L (ctr + (N.of_nat (length m) + 1))) as [Hz|Hz]; inversion EU; subst r fl'.
    - eexists. split; [reflexivity|]. unfold sizes; cbn [map concat length].
      assert (M := N.mod_lt (ctr + (N.of_nat (length m) + 1)) L). lia.
    - rewrite N.mod_small by exact Hz. eexists. split; [reflexivity|].
      unfold sizes in *. rewrite map_app, concat_app, app_length. cbn [map concat]. rewrite app_nil_r. lia. }
  destruct (R_final c _ (T_bytes L) T1
     (fun l fl m fl' P A EU => UP l fl m Idle fl' P A EU) (fun l fl m fl' P A EU => UP l fl m Flush fl' P A EU)
     s0 acts s k ts Hok HC HM HKp E) as [HR _].
  destruct (R_crash c (T_bytes L) T1 _ _ _ f HR) as (sa & lo & fl & A & [p1 A1] & [p2 A2] & ctr & _ & A3).
  exists p2. split; [exact A2|]. rewrite A, A1, <- app_assoc in A2. apply app_inv_head in A2.
  unfold sizes in A3. rewrite A2, app_length in A3. lia.
Qed.

(** ** Where it fails *)

Definition calm_emits (ms : list bytes) : list action := map (fun m => Emit m (calm 0 0 0)) ms.

Lemma stuck_go c ms : forall s k s' k' ts,
  k_bad k = false -> should_rotate s k = false ->
  run c s (Some k) (calm_emits ms) = (s', k', ts) ->
  f_path s' = f_path s /\ Forall (fun b => b = false) ts /\
  forall f, handed s' k' f = handed s (Some k) f ++ (if Nat.eqb (k_file k) f then concat (map line ms) else []).
Proof.
  induction ms as [|m ms IH]; intros s k s' k' ts Hb Hr E.
  - inversion E; subst. split; [reflexivity|]. split; [constructor|]. intros f. cbn. destruct (Nat.eqb (k_file k) f); rewrite app_nil_r; reflexivity.
  - cbn [calm_emits map] in E. apply run_cons in E as (s1 & k1 & t1 & t2 & ES & ER & ->).
    cbn [step] in ES. unfold emit, find_backend in ES. cbn [calm o_before_stat externals fold_left] in ES. rewrite Hr in ES.
    fold (calm 0 0 0) in ES. destruct (backend_write s k m (calm 0 0 0)) as [[s2 k2] t] eqn:EW.
    inversion ES; subst s1 k1 t1; clear ES.
    destruct (backend_write_ok s k m (calm 0 0 0) 0 0 s2 k2 t Hb eq_refl eq_refl EW)
      as (-> & N2 & P2 & I2 & V2 & F2 & B2 & J2 & H2 & _).
    assert (Hr2 : should_rotate s2 k2 = false).
    { unfold should_rotate in *. rewrite J2, P2, I2. exact Hr. }
    destruct (IH _ _ _ _ _ B2 Hr2 ER) as (PP & TT & HH). split; [congruence|].
    split; [constructor; [reflexivity|exact TT]|].
    intros f. rewrite HH, H2, F2. cbn [map concat]. rewrite <- app_assoc.
    destruct (Nat.eqb (k_file k) f); reflexivity.
Qed.

Definition one_file : fs := FS (Some 0) (fun _ => []) (fun _ => 1%N) (fun _ => 10%N) 1.

Lemma rotation_race_lemma : exists c s0 m o s1 k1,
  c_stat c = true /\ fs_ok s0 /\ no_write_failure o /\ emit c s0 None m o = (s1, Some k1, false) /\
  f_path s1 = Some 1 /\ f_ino s1 1 <> f_ino s1 0 /\
  forall ms s2 k2 ts, run c s1 (Some k1) (calm_emits ms) = (s2, k2, ts) ->
    f_path s2 = Some 1 /\ f_data (destroy s2 k2) 1 = [] /\
    f_data (destroy s2 k2) 0 = line m ++ concat (map line ms).
Proof.
  exists (Config true (FRepeat (repeat_new 1))), one_file, (B "first"),
    (Circ [] None [] (Some (1, 12)%N) [XCreate 1 11 []] (IoOk 0) (IoOk 0)).
  eexists _, _. split; [reflexivity|]. split; [intros f E; cbn in *; injection E as <-; lia|].
  split; [repeat split; eexists; reflexivity|]. split; [vm_compute; reflexivity|].
  split; [reflexivity|]. split; [vm_compute; discriminate|].
  intros ms s2 k2 ts E.
  apply stuck_go in E as (P1 & _ & HH); [|reflexivity|reflexivity].
  split; [exact P1|].
  assert (D : forall f, f_data (destroy s2 k2) f = handed s2 k2 f).
  { intros f. destruct k2; cbn [destroy]; [apply close_handed|]. unfold handed. symmetry; apply app_nil_r. }
  rewrite !D, !HH. split; reflexivity.
Qed.

Lemma other_device_lemma : exists c s0 acts s k ts m1 m2,
  c_stat c = true /\ fs_ok s0 /\ Forall calm_action acts /\ run c s0 None acts = (s, k, ts) /\
  f_path (destroy s k) = Some 1 /\ f_dev s 0 <> f_dev s 1 /\
  acts = [Emit m1 (calm 0 0 0); Ext (XCreate 2 10 []); Emit m2 (calm 0 0 0)] /\
  f_data (destroy s k) 1 = [] /\ f_data (destroy s k) 0 = line m1 ++ line m2.
Proof.
  exists (Config true (FRepeat (repeat_new 0))), one_file, [Emit (B "a") (calm 0 0 0); Ext (XCreate 2 10 []); Emit (B "b") (calm 0 0 0)].
  eexists _, _, _, (B "a"), (B "b"). split; [reflexivity|]. split; [intros f E; cbn in *; injection E as <-; lia|].
  split; [repeat (apply Forall_cons; [cbn; try exact I; eexists _, _, _; reflexivity|]); constructor|].
  split; [vm_compute; reflexivity|].
  split; [reflexivity|]. split; [vm_compute; discriminate|]. split; [reflexivity|]. split; reflexivity.
Qed.

Lemma failed_stays_failed_lemma : forall c acts s k s' k' ts,
  k_bad k = true -> k_inode k = None -> k_file k < f_new s ->
  run c s (Some k) acts = (s', k', ts) ->
  k' = Some k /\ Forall (fun threw => threw = true) ts /\ forall f, f < f_new s -> f_data s' f = f_data s f.
Proof.
  intros c acts. induction acts as [|a acts IH]; intros s k s' k' ts Hb Hi Hlt E.
  - inversion E; subst. auto.
  - apply run_cons in E as (s1 & k1 & t1 & t2 & ES & ER & ->). destruct a as [x|m o]; cbn [step] in ES.
    + inversion ES; subst s1 k1 t1. destruct (grows_external s x) as (NG & _ & DG).
      destruct (IH _ _ _ _ _ Hb Hi (Nat.lt_le_trans _ _ _ Hlt NG) ER) as (A & B1 & C). split; [exact A|]. split; [exact B1|].
      intros f Hf. rewrite C by lia. apply DG; exact Hf.
    + unfold emit, find_backend, should_rotate in ES. rewrite Hi in ES. unfold backend_write in ES. rewrite Hb in ES.
      inversion ES; subst s1 k1 t1. destruct (grows_externals (o_before_stat o) s) as (NG & _ & DG).
      destruct (IH _ _ _ _ _ Hb Hi (Nat.lt_le_trans _ _ _ Hlt NG) ER) as (A & B1 & C). split; [exact A|].
      split; [constructor; [reflexivity|exact B1]|].
      intros f Hf. rewrite C by lia. apply DG; exact Hf.
Qed.

Lemma failed_once_lemma : exists c s0 m o s1 k1,
  fs_ok s0 /\ emit c s0 None m o = (s1, Some k1, true) /\ o_write o = IoFail 0 0 /\
  forall acts s2 k2 ts, Forall calm_action acts -> run c s1 (Some k1) acts = (s2, k2, ts) ->
    Forall (fun threw => threw = true) ts /\ f_data (destroy s2 k2) 0 = [].
Proof.
  exists (Config false (FRepeat (repeat_new 1))), one_file, (B "first"),
    (Circ [] None [] (Some (1, 12)%N) [] (IoFail 0 0) (IoOk 0)).
  eexists _, _. split; [intros f E; cbn in *; injection E as <-; lia|]. split; [vm_compute; reflexivity|].
  split; [reflexivity|]. intros acts s2 k2 ts _ E.
  apply failed_stays_failed_lemma in E as (-> & A & C); [|reflexivity|reflexivity|vm_compute; lia].
  split; [exact A|]. unfold destroy. rewrite close_handed. unfold handed. rewrite C by (vm_compute; lia). reflexivity.
Qed.
