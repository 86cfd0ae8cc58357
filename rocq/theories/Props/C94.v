(** C94: Copies of KT, KTBinary, SAD, Averager and Factored are deep. *)
From Verif Require Import Spec.CopiesSpec Proofs.CopiesTop.
Open Scope R_scope.

(** Any program that makes models, puts models into others, copies, deletes, updates and queries them gets the values and exceptions that
    it would get if every variable held a value of its own. *)
Theorem C94_deep : forall ops, program (World [] []) ops = v_program [] ops.
Proof. exact copies_deep. Qed.
Print Assumptions C94_deep.

Example C94_ex : program (World [] []) [MKTB; MKT [0; 1]%Z; MFac [0%nat; 1%nat]; MCopy 2; MUpdate 2 0 [] 1; MUpdate 3 1 [] 1; MPredict 2 0 []; MPredict 3 0 []] =
  Ok [ln (/2); ln (/2); ln (3/4); ln (1/4)].
Proof. exact ex_program_runs. Qed.

(** These values are the models of C02 to C08 and C32. *)
Theorem C94_leaves : behaves KT_model VKT /\ behaves KTB_model VKTB /\ behaves SAD_model VSAD /\ behaves Factored.Dumb_model (fun _ => VDumb).
Proof. exact behaves_leaves. Qed.
Print Assumptions C94_leaves.
Theorem C94_factored : forall S (M : model S) f, behaves M f -> behaves (Factored_model M) (fun s => VFac (map f s)).
Proof. exact behaves_fac. Qed.
Print Assumptions C94_factored.
Theorem C94_averager : forall S (M : model S) f, behaves M f ->
  behaves (AVG_model M) (fun s => VAvg (map (fun kv => (f (fst (snd kv)), snd (snd kv))) (av_models s)) (av_lp s)).
Proof. exact behaves_avg. Qed.
Print Assumptions C94_averager.

(** Refuted: that a copy always does what the original would do. One model used for two factors becomes two models. *)
Theorem C94_shared_refuted : exists h f c h1, (let '(h, k) := new_ktb [] in new_fac h [k; k]) = (h, f) /\ o_copy (depth_bound h) h f = Ok (h1, c) /\
  (exists g, o_update (depth_bound h1) h1 f 0 [] 1 = Ok (g, ln (/2)) /\ o_logp (depth_bound g) g f 0 [0%Z] = Ok (ln (3/4))) /\
  (exists g, o_update (depth_bound h1) h1 c 0 [] 1 = Ok (g, ln (/2)) /\ o_logp (depth_bound g) g c 0 [0%Z] = Ok (ln (/2))) /\ ln (3/4) <> ln (/2).
Proof. exact shared_lost. Qed.
Print Assumptions C94_shared_refuted.

(** Refuted: that all models can be copied. Dumb has no copy, nor have the models it is meant to be used in. *)
Theorem C94_dumb_refuted : program (World [] []) [MDumb; MKTB; MFac [0%nat; 1%nat]] = Ok [] /\ program (World [] []) [MDumb; MKTB; MFac [0%nat; 1%nat]; MCopy 2] = Err NotImplementedError.
Proof. exact dumb_lost. Qed.
Print Assumptions C94_dumb_refuted.
