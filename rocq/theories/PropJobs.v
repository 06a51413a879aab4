(** C22, C38: conversion jobs and batches of them. *)
From Coq Require Import Ascii String List ZArith Bool.
From Verif Require Import Base Ftp FtpClient Plan Jobs JobsSpec JobsTop.
Import ListNotations.
Open Scope Z_scope.

(** At every moment of a job, whatever fails, all entries but the output are as
    before, and without override so is everything that existed. *)
Theorem C22_untouched : forall d0 t p d q, wf_disk d0 -> preach true (raw2dng t, d0) (p, d) ->
  q <> t_output t \/ (t_replace t = false /\ names d0 q <> None) -> same d0 d q.
Proof. exact job_untouched. Qed.
Print Assumptions C22_untouched.

(** The report of a finished job is true: success means the output holds the
    whole conversion, a conversion error that the output is gone. *)
Theorem C22_reported : forall d0 t r d c, wf_disk d0 -> preach true (raw2dng t, d0) (Done r, d) ->
  way d0 [t] (t_input t) -> read d0 (t_input t) = Some c -> reported d0 t c r d.
Proof. exact job_reported. Qed.
Print Assumptions C22_reported.

(** If no operation fails the outcome is the expected one. *)
Theorem C22_expected : forall d0 t r d c, wf_disk d0 -> has_name (t_input t) = true ->
  names d0 (t_output t) = None \/ (exists i, names d0 (t_output t) = Some (Ino i)) -> preach false (raw2dng t, d0) (Done r, d) ->
  way d0 [t] (t_input t) -> read d0 (t_input t) = Some c -> r = expected d0 t c.
Proof. exact job_expected. Qed.
Print Assumptions C22_expected.

(** Development and extraction jobs follow links of the output but change
    nothing that is not reached through it. *)
Theorem C22_image_untouched : forall d0 t p d q, wf_disk d0 -> preach true (raw2image t, d0) (p, d) -> clear_of d0 (t_output t) q -> same d0 d q.
Proof. exact image_untouched. Qed.
Print Assumptions C22_image_untouched.

Theorem C22_extract_untouched : forall d0 t parse p d q, wf_disk d0 -> preach true (extractraw t parse, d0) (p, d) ->
  clear_of d0 (t_output t) q -> same d0 d q.
Proof. exact extract_untouched. Qed.
Print Assumptions C22_extract_untouched.

Theorem C22_image_no_clobber : forall d0 t p d e n, t_replace t = false -> follow (names d0) 40 (t_output t) = Some (e, Some n) ->
  preach false (raw2image t, d0) (p, d) -> d = d0 /\ (p = raw2image t \/ p = Done JExists).
Proof. exact image_no_clobber. Qed.
Print Assumptions C22_image_no_clobber.

Theorem C22_extract_no_clobber : forall d0 t parse p d e n, t_replace t = false -> follow (names d0) 40 (t_output t) = Some (e, Some n) ->
  preach false (extractraw t parse, d0) (p, d) -> d = d0 /\ (p = extractraw t parse \/ p = Done JExists).
Proof. exact extract_no_clobber. Qed.
Print Assumptions C22_extract_no_clobber.

(** With override a failing conversion has already deleted the old output. *)
Theorem C22_override_loses_refuted : exists t d, t_replace t = true /\ read disk0 (t_output t) = Some [9] /\
  preach false (raw2dng t, disk0) (Done (JConv false), d) /\ read d (t_output t) = None.
Proof. exact override_loses. Qed.
Print Assumptions C22_override_loses_refuted.

(** With override and the input as output, the input is deleted before it is read. *)
Theorem C22_in_place_refuted : exists t d, t_replace t = true /\ t_input t = t_output t /\ read disk0 (t_input t) = Some [9] /\
  t_conv t [9] = good [9] /\ preach false (raw2dng t, disk0) (Done (JConv false), d) /\ read d (t_input t) = None.
Proof. exact in_place_loses. Qed.
Print Assumptions C22_in_place_refuted.

(** Failures of lock, final flush and time stamp leave an output behind. *)
Theorem C22_leftovers_refuted : exists t1 t2 t3 d1 d2 d3,
  names disk1 dng_ = None /\ t_output t1 = dng_ /\ t_output t2 = dng_ /\ t_output t3 = dng_ /\
  preach true (raw2dng t1, disk1) (Done JIo, d1) /\ holds d1 dng_ [] /\
  preach true (raw2dng t2, disk1) (Done JIo, d2) /\ holds d2 dng_ [0] /\
  preach true (raw2dng t3, disk1) (Done JIo, d3) /\ holds d3 dng_ [0; 1; 2].
Proof. exact leftovers. Qed.
Print Assumptions C22_leftovers_refuted.

(** So does a panic of the conversion. *)
Theorem C22_panic_refuted : exists t d, names disk1 (t_output t) = None /\ preach false (raw2dng t, disk1) (Done JAbort, d) /\ holds d (t_output t) [0].
Proof. exact panic_leaves. Qed.
Print Assumptions C22_panic_refuted.

(** Two development jobs with the same output both succeed, one result is lost. *)
Theorem C22_image_race_refuted : exists t1 t2 d, t_output t1 = t_output t2 /\ t_replace t1 = false /\ t_replace t2 = false /\
  names disk1 (t_output t1) = None /\ breach false ([raw2image t1; raw2image t2], disk1) ([Done JOk; Done JOk], d) /\
  t_conv t1 [1; 2] = ([], EDone [7]) /\ holds d (t_output t1) [8].
Proof. exact image_race. Qed.
Print Assumptions C22_image_race_refuted.

(** An existing output is refused, a new one is written. *)
Example C22_example :
  fst (play (repeat false 9) (raw2dng (mkTask raw_ dng_ false false good)) disk0) = Done JExists /\
  let '(p, d) := play (repeat false 9) (raw2dng (mkTask raw_ dng_ false true good)) disk1 in p = Done JOk /\ holds d dng_ [0; 1; 2].
Proof. split; [reflexivity|]. cbn. split; [reflexivity|]. exists 1%nat. split; reflexivity. Qed.

(** Jobs with different outputs in any interleaving: nothing else changes. *)
Theorem C38_spared : forall d0 ts ps d, wf_disk d0 -> NoDup (map t_output ts) -> breach true (map raw2dng ts, d0) (ps, d) ->
  forall q, spared d0 ts q -> same d0 d q.
Proof. exact batch_spared. Qed.
Print Assumptions C38_spared.

(** Every job reports truthfully about its own output. *)
Theorem C38_reported : forall d0 ts ps d, wf_disk d0 -> NoDup (map t_output ts) -> breach true (map raw2dng ts, d0) (ps, d) ->
  forall k t r c, nth_error ts k = Some t -> nth_error ps k = Some (Done r) -> way d0 ts (t_input t) -> read d0 (t_input t) = Some c ->
  reported d0 t c r d.
Proof. exact batch_reported. Qed.
Print Assumptions C38_reported.

(** Without failures the interleaving does not matter at all. *)
Theorem C38_expected : forall d0 ts ps d, wf_disk d0 -> NoDup (map t_output ts) ->
  (forall t, In t ts -> has_name (t_input t) = true /\ (names d0 (t_output t) = None \/ exists i, names d0 (t_output t) = Some (Ino i))) ->
  breach false (map raw2dng ts, d0) (ps, d) ->
  forall k t r c, nth_error ts k = Some t -> nth_error ps k = Some (Done r) -> way d0 ts (t_input t) -> read d0 (t_input t) = Some c ->
  r = expected d0 t c /\ reported d0 t c r d.
Proof. exact batch_expected. Qed.
Print Assumptions C38_expected.

(** Every state leads to one where all jobs are finished. *)
Theorem C38_progress : forall ps d, exists rs d', breach false (ps, d) (map Done rs, d').
Proof. exact batch_progress. Qed.
Print Assumptions C38_progress.

(** The command succeeds exactly if every job does. *)
Theorem C38_command : forall rs, command_result rs = JOk <-> forall r, In r rs -> r = JOk.
Proof. exact command_ok. Qed.
Print Assumptions C38_command.

(** Two jobs: in every run the second ends with its own content. *)
Example C38_example : forall ps d r, breach false (map raw2dng two, disk2) (ps, d) -> nth_error ps 1 = Some (Done r) -> r = JOk /\ holds d dng2_ [0; 3].
Proof. exact two_example. Qed.
