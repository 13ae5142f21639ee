(* C36. *)
From Verif Require Import Bytes FrameModel DpthModel RestoreModel BuModel AuthModel TimerModel BuProofs TimerProofs.

Theorem C36_timer_exact : forall e args, run_timer e args = Some 0 <-> due e args.
Proof. exact timer_exact. Qed.
Theorem C36_timer_defined : forall e args, run_timer e args <> None.
Proof. exact timer_defined. Qed.
Theorem C36_timer_invalid : forall e i bands, t_manual e = false -> t_prior e = true -> interval_seconds i < 0 ->
  run_timer e (i :: bands) = Some 1 \/ run_timer e (i :: bands) = Some (-1).
Proof. exact timer_invalid. Qed.
Theorem C36_interval_value : forall s n, interval s n -> interval_seconds s = n /\ 0 <= n.
Proof. exact interval_value. Qed.

(* The bands of the example configuration; last backup at 1000000. *)
Definition ex_args : list bytes := [str "20h"; str "Mon,Tue,Wed,Thu,Fri,00,01,02"; str "Sat,Sun,00,01"].
Example ex_C36 :
  run_timer (mkt false true (Some 1000000) (str "Mon") (str "01") 1072001) ex_args = Some 0 /\
  run_timer (mkt false true (Some 1000000) (str "Mon") (str "01") 1072000) ex_args = Some 1 /\
  run_timer (mkt false true (Some 1000000) (str "Sat") (str "02") 2000000) ex_args = Some 1 /\
  run_timer (mkt true true (Some 1000000) (str "Sat") (str "02") 1000001) ex_args = Some 0 /\
  run_timer (mkt false false None (str "Sat") (str "00") 0) ex_args = Some 0 /\
  run_timer (mkt false true None (str "Sat") (str "00") 0) [str "20"; str "always"] = Some (-1) /\
  interval_seconds (str "20h") = 72000 /\ interval_seconds (str "1n") = 2592000 /\ interval_seconds (str "-5h") < 0 /\
  interval_seconds (str "5x") < 0.
Proof. vm_compute. repeat split. Qed.
Example ex_C36_interval : interval (str "20h") 72000.
Proof.
  apply (interval_intro (str "20") 104 3600 []); try discriminate; try reflexivity.
  change (Forall (fun c => 48 <= c <= 57) [50; 48]). repeat (apply Forall_cons; [lia|]). apply Forall_nil.
Qed.

Print Assumptions C36_timer_exact.
Print Assumptions C36_timer_defined.
Print Assumptions C36_timer_invalid.
Print Assumptions C36_interval_value.
