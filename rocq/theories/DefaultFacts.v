(** Any plugin: what becomes of its errors; plugins that keep the defaults. *)
From Coq Require Import Lia.
From Verif Require Import Base Num Path Options World Sys Io Env Core Spec TraceSpec SessionSpec CallbackSpec
  RunProofs IoProofs RequestProofs PairPure OpenFacts SessionFacts CallbackFacts OutputFacts Frontend FrontSpec FrontFacts Defaults.
Local Open Scope Z_scope.

Lemma has_nul_app a b : has_nul a = false -> has_nul b = false -> has_nul (a ++ b) = false.
Proof. unfold has_nul. intros Ha Hb. rewrite existsb_app, Ha, Hb. reflexivity. Qed.

Lemma told {A} pf name display (w : world) (z : A) printf :
  pf = mkPf printf LEVEL_ERROR (name ++ B ": ") ->
  forall o w', catch (write_error pf display None ;;; ret z) w = (o, w') ->
  exists evs, w_trace w' = w_trace w ++ evs
  /\ (HonestPrintf evs -> o = Done (Some z) \/ o = Stopped)
  /\ Told name display printf evs (o = Done (Some z)).
Proof.
  intros -> o w' H. unfold catch, bind in H.
  destruct (write_error (mkPf printf LEVEL_ERROR (name ++ B ": ")) display None w) as [o1 w1] eqn:E.
  destruct (report_exact 0 _ _ _ _ _ E) as (evs & R & HO & HT & HF).
  cbn [pf_level pf_tag pf_present] in *. change LEVEL_ERROR with 3 in *.
  assert (HW : w' = w1) by (destruct o1 as [?| |]; cbn in H; congruence). subst w'.
  exists evs. split; [exact (Ran_trace _ _ _ _ R)|]. split.
  - intros HH. specialize (HT HH). destruct o1 as [?| |]; cbn in H; [left; congruence|contradiction|right; congruence].
  - split; [exact HO|]. split.
    + intros HH. specialize (HT HH). cbv zeta in HT. rewrite <- app_assoc in HT.
      destruct o1 as [[?|?]| |]; [|exact HT|contradiction|exact HT]. rewrite HT. exists []. rewrite app_nil_r. reflexivity.
    + intros HP Hn Hd HH Hf He. specialize (HT HH). cbv zeta in HT. rewrite <- app_assoc in HT.
      specialize (HF HP (has_nul_app name (B ": ") Hn eq_refl) Hd Hf).
      destruct o1 as [[?|x]| |]; [exact HT|destruct (HF x eq_refl)|contradiction|]. cbn in H. congruence.
Qed.

Lemma opened_stderr P pl a rq st p w w' : Describes pl a rq ->
  core_open P pl a (pstate0 P) w = (Done (1, st), w') -> st_plugin st = Some p ->
  exists e, st_env st = Some e /\ Matches e rq /\ en_stderr e = mkPf (oa_printf a) LEVEL_ERROR (pg_name P ++ B ": ").
Proof.
  intros D H Hp. unfold core_open in H. destruct (pf_new (Some (pg_name P)) (oa_printf a)) as [x stderr].
  destruct (io_env_new pl (pg_name P) (pg_version P) a) as [[e|er]|] eqn:E.
  - pose proof (env_Matches _ _ _ _ _ _ D E) as M. destruct (env_printf _ _ _ _ _ E) as [ES _]. cbn [pstate0 st_env st_plugin] in H.
    destruct (path_eqb (ci_command (en_command_info e)) []).
    + injection H as <- _. discriminate Hp.
    + unfold bind at 1 in H. destruct (catch _ w) as [[[[q|z]|]| |] w1]; try discriminate H; injection H; intros; subst.
      * exists e. auto.
      * discriminate Hp.
  - unfold bind at 1 in H. destruct (catch_open _ w) as [[z| |] w1]; try discriminate H. injection H. intros. subst. discriminate Hp.
  - discriminate H.
Qed.

Lemma error_in_open P pl a rq open : Describes pl a rq -> rq_command rq <> [] -> ~ MasklessAddr pl (oa_settings a) ->
  t_open (exported P pl) = Some open ->
  exists e, Matches e rq /\ forall w w2 er, pg_open P pl e w = (Done (Err er), w2) -> pg_source P er = None ->
    forall o w3, open a (pstate0 P) w = (o, w3) ->
    exists evs, w_trace w3 = w_trace w2 ++ evs
    /\ (HonestPrintf evs -> o = Done (pg_open_status P er, mkPstate (Some e) None) \/ o = Stopped)
    /\ Told (pg_name P) (pg_display P er) (oa_printf a) evs (exists r, o = Done r).
Proof.
  intros D NC NM HO. cbn [exported t_open] in HO. injection HO as <-.
  destruct (io_env_new pl (pg_name P) (pg_version P) a) as [[e|er]|] eqn:E.
  2: { exfalso. eapply io_env_new_not_Err; eassumption. }
  2: { exfalso. apply NM. eapply io_env_new_None. exact E. }
  pose proof (env_Matches _ _ _ _ _ _ D E) as M. exists e. split; [exact M|]. intros w w2 er HP HS o w3 H.
  assert (Hc : path_eqb (ci_command (en_command_info e)) [] = false).
  { rewrite (m_command _ _ M). destruct (path_eqb (rq_command rq) []) eqn:X; [|reflexivity].
    exfalso. apply NC. apply path_eqb_nil. exact X. }
  unfold core_open in H. cbn [pf_new] in H.
  rewrite E in H. cbn [pstate0 st_env st_plugin] in H. rewrite Hc in H.
  set (pf := mkPf (oa_printf a) LEVEL_ERROR (pg_name P ++ B ": ")) in H.
  destruct (catch (write_error pf (pg_display P er) None ;;; ret (@Err (pg_state P) Z (pg_open_status P er))) w2) as [o1 w4] eqn:X.
  assert (Y : catch (r <- pg_open P pl e ;;
                    match r with
                    | Ok p => ret (Ok p)
                    | Err e => write_error pf (pg_display P e) (pg_source P e) ;;;
                               ret (Err (pg_open_status P e))
                    end) w = (o1, w4)).
  { rewrite <- X. unfold catch, bind. rewrite HP, HS. reflexivity. }
  unfold bind at 1 in H. rewrite Y in H.
  destruct (told pf (pg_name P) (pg_display P er) w2 _ (oa_printf a) eq_refl _ _ X) as (evs & T1 & T2 & T3).
  assert (W : w3 = w4).
  { unfold catch in X. destruct ((write_error pf (pg_display P er) None ;;; ret (Err (pg_open_status P er))) w2) as [[u| |] w5] eqn:Z;
      unfold bind in Z; destruct (write_error pf (pg_display P er) None w2) as [[v| |] w6]; cbn in Z; inversion Z; subst;
      cbn in X; inversion X; subst; cbn in H; inversion H; reflexivity. }
  subst w4. exists evs. split; [exact T1|]. split.
  - intros HH. destruct (T2 HH) as [->| ->]; cbn in H; inversion H; auto.
  - destruct T3 as (A1 & A2 & A3). split; [exact A1|]. split; [exact A2|].
    intros Q1 Q2 Q3 Q4 Q5 [r Hr]. apply A3; try assumption. destruct (T2 Q4) as [->| ->]; [reflexivity|].
    cbn in H. congruence.
Qed.

Lemma report_told P env name printf er m w w2 o w3 :
  en_stderr env = mkPf printf LEVEL_ERROR (name ++ B ": ") ->
  m w = (Done (Err er), w2) -> pg_source P er = None ->
  catch_log (report P env m) w = (o, w3) ->
  exists evs, w_trace w3 = w_trace w2 ++ evs
    /\ (HonestPrintf evs -> o = Done (pg_log_status P er) \/ o = Stopped)
    /\ Told name (pg_display P er) printf evs (exists z, o = Done z).
Proof.
  intros HE HM HS H.
  destruct (catch (write_error (en_stderr env) (pg_display P er) None ;;; ret (pg_log_status P er)) w2) as [o1 w4] eqn:X.
  assert (Y : catch (report P env m) w = (o1, w4)).
  { rewrite <- X. unfold catch, report, bind. rewrite HM, HS. reflexivity. }
  unfold catch_log, bind at 1 in H. rewrite Y in H.
  destruct (told _ _ _ w2 _ printf HE _ _ X) as (evs & T1 & T2 & T3). exists evs.
  assert (W : w3 = w4) by (destruct o1 as [[?|]| |]; inversion H; reflexivity). subst w4.
  split; [exact T1|]. split.
  - intros HH. destruct (T2 HH) as [->| ->]; inversion H; auto.
  - destruct T3 as (A1 & A2 & A3). split; [exact A1|]. split; [exact A2|].
    intros Q1 Q2 Q3 Q4 Q5 [r Hr]. apply A3; try assumption. destruct (T2 Q4) as [->| ->]; [reflexivity|].
    inversion H. congruence.
Qed.

Lemma error_in_session P pl a rq st p w w' open : Describes pl a rq -> t_open (exported P pl) = Some open ->
  open a (pstate0 P) w = (Done (1, st), w') -> st_plugin st = Some p -> forall ev ask m,
  asked (exported P pl) ev = Some ask ->
  match ev with
  | Moved s d => (rq_log rq s = true \/ pg_ignore_hints P = true) /\ m = pg_log P pl s p d
  | Resized l c => m = pg_winsize P pl p l c
  | Suspended _ => False
  end ->
  forall w1 w2 er, m w1 = (Done (Err er), w2) -> pg_source P er = None ->
  forall o w3, ask st w1 = (o, w3) ->
  exists evs, w_trace w3 = w_trace w2 ++ evs
    /\ (HonestPrintf evs -> o = Done (pg_log_status P er) \/ o = Stopped)
    /\ Told (pg_name P) (pg_display P er) (oa_printf a) evs (exists z, o = Done z).
Proof.
  intros D HO H Hp ev ask m HA HM w1 w2 er HE HS o w3 HR. cbn [exported t_open] in HO. injection HO as <-.
  destruct (opened_stderr P pl a rq st p w w' D H Hp) as (e & He & M & HT).
  destruct ev as [s d|l c|n]; [| |discriminate HA].
  - assert (X : ask = core_log P pl s d) by (destruct s; cbn in HA; injection HA as <-; reflexivity). subst ask.
    destruct HM as [HH ->]. unfold core_log in HR. rewrite He, Hp in HR.
    assert (Y : negb (hint s (en_command_info e)) && negb (pg_ignore_hints P) = false).
    { rewrite (m_log _ _ M s). destruct HH as [-> | ->]; [reflexivity|]. apply andb_false_r. }
    rewrite Y in HR. eapply report_told; eassumption.
  - cbn in HA. injection HA as <-. subst m. unfold core_change_winsize in HR. rewrite He, Hp in HR.
    eapply report_told; eassumption.
Qed.

(** *** Defaults *)
Section Defaults.
Context (S E : Type) (name : bytes) (open : platform -> io_env -> M (result S E)) (drop : S -> M unit)
  (from_error : error -> E) (os ls : E -> Z) (display : E -> bytes) (source : E -> option bytes).
Let P := defaults S E name open drop from_error os ls display source.

Lemma default_step pl e p ev f w : f_live f = true -> f_off f = [] -> f_state f = mkPstate (Some e) (Some p) ->
  front_step (exported P pl) ev f w = (Done (pass ev f), w).
Proof.
  intros HL HO HF. unfold front_step. rewrite HL, HO, HF. cbn [negb]. destruct ev as [[] d|l c|n]; cbn;
  try reflexivity; unfold core_log, core_change_winsize, catch_log, catch, bind; cbn [st_env st_plugin hint];
  try (match goal with |- context [negb ?b && _] => destruct b end); reflexivity.
Qed.

Lemma default_steps pl e p h : forall f w, f_live f = true -> f_off f = [] -> f_state f = mkPstate (Some e) (Some p) ->
  front_steps (exported P pl) h f w
  = (Done (mkFront (f_state f) [] (f_given f ++ flat_map data_of h) true), w).
Proof.
  induction h as [|ev h IH]; intros f w HL HO HF; cbn [front_steps flat_map].
  - rewrite app_nil_r, <- HO, <- HL. destruct f. reflexivity.
  - rewrite (bind_Done _ _ _ _ _ (default_step pl e p ev f w HL HO HF)).
    rewrite IH; destruct ev; cbn; try assumption; [rewrite <- app_assoc; reflexivity|reflexivity|reflexivity].
Qed.

Lemma default_session pl a h rq : Describes pl a rq -> rq_command rq <> [] -> ~ MasklessAddr pl (oa_settings a) ->
  exists e, Matches e rq /\ forall w p w', open pl e w = (Done (Ok p), w') ->
  exists f, front_run (exported P pl) a h w = (Done (Some f), w')
    /\ f_live f = true /\ f_off f = [] /\ f_given f = flat_map data_of h
    /\ (forall x err w1 w2, drop p w1 = (Done tt, w2) -> front_close (exported P pl) x err f w1 = (Done (pstate0 P), w2)).
Proof.
  intros D NC NM. destruct (any_open P pl a rq (core_open P pl) D NC NM eq_refl) as (e & M & HA).
  exists e. split; [exact M|]. intros w p w' HO. destruct (HA w w') as [H1 _]. specialize (H1 p HO).
  exists (mkFront (@mkPstate P (Some e) (Some p)) [] (flat_map data_of h) true). split; [|split; [reflexivity|split; [reflexivity|split; [reflexivity|]]]].
  - unfold front_run. cbn [exported t_open]. rewrite (bind_Done _ _ _ _ _ H1). change (1 =? 1) with true. cbv beta iota.
    rewrite (bind_Done _ _ _ _ _ (default_steps pl e p h (mkFront (@mkPstate P (Some e) (Some p)) [] [] true) w' eq_refl eq_refl eq_refl)).
    reflexivity.
  - intros x err w1 w2 HD. unfold front_close. cbn [exported t_close f_state]. unfold core_close. cbn [st_plugin].
    unfold catch, bind. change (pg_close P p x err w1) with (drop p w1). rewrite HD. reflexivity.
Qed.
End Defaults.
