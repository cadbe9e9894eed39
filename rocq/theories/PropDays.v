(** The version check over any number of days, exactly (C48, C49, C61). *)
From Verif Require Import Base StrLib Fs Values ValuesSpec FormatParse Parser VersionCheck VersionSpec VersionProofs VersionRuns Age AgeProofs Samples DaysSpec DaysProofs PropVersion.
Local Open Scope Z_scope.

(** every history goes the course of [DaysSpec.v]; nothing but the time and the decision matters *)
Theorem C48_exact : forall m nd home f l f2 mem, cookie_name m -> history m nd home f l f2 -> remembered nd home (m_app_name m) f mem ->
  exists mem', course mem l mem' /\ remembered nd home (m_app_name m) f2 mem'.
Proof. exact course_lemma. Qed.
Print Assumptions C48_exact.

(** which is determined *)
Theorem C48_determined : forall e user mem a c mem1 a' c' mem1', expected e user mem a c mem1 -> expected e user mem a' c' mem1' -> a = a' /\ c = c' /\ mem1 = mem1'.
Proof. exact expected_unique. Qed.
Print Assumptions C48_determined.

(** after "always": no request on the first day, one at each run from then on *)
Theorem C48_after_always : forall m nd home f l f2 t, cookie_name m -> history m nd home f l f2 -> stored nd home (m_app_name m) f t "ALWAYS" -> 0 <= t < 2 ^ 53 ->
  forall r, In r l -> ~ asks (r_events r) /\
  (r_user r = None -> ve_opt_out (r_env r) = false -> (requests (r_events r) <-> 86400 <= ve_now (r_env r) - t /\ has_program (r_env r))).
Proof.
  intros m nd home f l f2 t HN H S Ht. destruct (course_lemma m nd home f l f2 (Some (t, "ALWAYS")) HN H) as (mem' & C & _); [split; [exact S|split; [exact Ht|cbn; tauto]]|]. apply (always_course t l mem' C).
Qed.
Print Assumptions C48_after_always.

Definition some_days : list (Z * string) := [(1000, "y"); (5000, "y"); (87400, "a"); (90000, "n"); (200000, "n"); (200001, "n")].
Example C48_case : exists f2, history (app "1.2.3") true "/home/u" disk (fst (simulate (app "1.2.3") disk (days some_days))) f2
  /\ remembered true "/home/u" (m_app_name (app "1.2.3")) disk None
  /\ map (fun r => (existsb is_request (r_events r), existsb (fun x => match x with Message q => String.eqb q question | _ => false end) (r_events r))) (fst (simulate (app "1.2.3") disk (days some_days)))
     = [(true, true); (false, false); (true, true); (false, false); (true, false); (true, false)].
Proof.
  eexists. split; [|split; vm_compute; reflexivity].
  apply (simulate_history (app "1.2.3") true "/home/u" (app_name_ok _)); [apply disk_usable|]. now apply days_ok.
Qed.

(** Where nothing can be kept every run is like the first one, whatever files there are; only the cookie in the working directory, which is
    never read, may change.  This is the complement of C49_asked_again_refuted. *)
Theorem C49_forgotten : forall e home m user f, ve_home e = Some home -> cookie_name m -> no_place e home f ->
  exists st a c mem', version_check e m true user {| vs_fs := f; vs_log := [] |} = (st, Ret tt) /\ expected e user None a c mem' /\
    (asks (vs_log st) <-> a = true) /\ (requests (vs_log st) <-> c = true /\ has_program e) /\
    no_place e home (vs_fs st) /\ forall k, k <> stray_cookie (ve_ndebug e) (m_app_name m) -> vs_fs st k = f k.
Proof. exact forgotten. Qed.
Print Assumptions C49_forgotten.

(** If the directory for temporary files has to be used, it serves as well. *)
Theorem C49_temporary : forall e home m, cookie_name m -> forall user f mem, ve_home e = Some home -> only_tmp e home (m_app_name m) f -> clock_ok (ve_recent e) -> 0 <= ve_now e < 2 ^ 53 ->
  remembered_tmp e (m_app_name m) f mem ->
  exists st a c mem', version_check e m true user {| vs_fs := f; vs_log := [] |} = (st, Ret tt) /\ expected e user mem a c mem' /\
    (asks (vs_log st) <-> a = true) /\ (requests (vs_log st) <-> c = true /\ has_program e) /\
    only_tmp e home (m_app_name m) (vs_fs st) /\ remembered_tmp e (m_app_name m) (vs_fs st) mem'.
Proof. exact tmp_run. Qed.
Print Assumptions C49_temporary.

(** a read-only home directory, with a directory for temporary files that can be written to and one that cannot; a read-only
    configuration directory *)
Definition home_locked : fs := upd bare ["home"; "u"] (Some (NDir ro)).
Definition all_locked : fs := upd home_locked ["tmp"] (Some (NDir ro)).
Definition config_locked : fs := upd disk seqan (Some (NDir ro)).
Definition asked_at (r : run) : bool := existsb (fun x => match x with Message q => String.eqb q question | _ => false end) (r_events r).
Definition three_days : list (Z * string) := [(1000, "n"); (90000, "n"); (200000, "n")].
Example C49_case_places :
  no_place (at_ true 1000 "n") "/home/u" all_locked /\ no_place (at_ true 1000 "n") "/home/u" config_locked /\ only_tmp (at_ true 1000 "n") "/home/u" "app" home_locked
  /\ remembered_tmp (at_ true 1000 "n") "app" home_locked None
  /\ map asked_at (fst (simulate (app "1.2.3") all_locked (days three_days))) = [true; true; true]
  /\ map asked_at (fst (simulate (app "1.2.3") config_locked (days three_days))) = [true; true; true]
  /\ map asked_at (fst (simulate (app "1.2.3") home_locked (days three_days))) = [true; false; false].
Proof.
  split; [exists ["tmp"], ro; repeat split; try (vm_compute; reflexivity); right; repeat split; try (vm_compute; reflexivity); [vm_compute; intros m' X; injection X as <-; reflexivity|discriminate]|].
  split; [exists seqan, ro; repeat split; try (vm_compute; reflexivity); left; split; [eexists; vm_compute; reflexivity|reflexivity]|].
  split; [|repeat split; vm_compute; reflexivity].
  split; [reflexivity|]. split; [vm_compute; intros m' X; injection X as <-; reflexivity|]. split; [discriminate|]. split; [eexists; split; vm_compute; reflexivity|]. split; [reflexivity|left; reflexivity].
Qed.
